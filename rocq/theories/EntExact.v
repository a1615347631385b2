(* character references, with the exact hypothesis: only what directly follows the ASCII part of a reference matters *)
From Coq Require Import Lia ZifyBool ZifyN ZifyNat.
From Verif Require Import Str StrFacts EntityTable EntitiesModel EntityTableFacts HtmlCharRefSpec EntitiesProofs.
From Verif Require UrlListProofs.
Open Scope list_scope. Open Scope N_scope.

(* the first character after those of the ASCII class is not one of the wide class outside ASCII *)
Definition next_ok (wide narrow : N -> bool) (t : str) : bool := match drop_while narrow t with c :: _ => (c <? 128) || negb (wide c) | [] => true end.
Lemma alnum_agree c : (c <? 128) || negb (is_alnum c) = true -> is_alnum c = is_alnum_ascii c.
Proof. intros H. apply char_ok_alnum. exact H. Qed.
Lemma isname_alnum c : isname c = true -> is_alnum c = true.
Proof. unfold isname, is_alnum. intros ->. reflexivity. Qed.
Lemma ascii_isname c : is_alnum_ascii c = true -> isname c = true.
Proof.
  intros H. assert (L : c < 128) by (apply is_alnum_ascii_lt; exact H). pose proof (is_alnum_ascii_eq c L) as E. rewrite H in E.
  assert (K : negb (is_alnum_ascii c) || isname c = true); [|rewrite H in K; exact K]. apply (UrlListProofs.ascii_check (fun c => negb (is_alnum_ascii c) || isname c)); [vm_compute; reflexivity|exact L].
Qed.
Lemma names_split t : next_ok is_alnum is_alnum_ascii t = true -> take_while isname t = take_while is_alnum_ascii t /\ drop_while isname t = drop_while is_alnum_ascii t.
Proof.
  induction t as [|c t IH]; intros H; [split; reflexivity|]. unfold next_ok in H. cbn [drop_while take_while] in *. destruct (is_alnum_ascii c) eqn:E.
  - rewrite (ascii_isname c E). destruct (IH H) as [A B]. rewrite A, B. split; reflexivity.
  - assert (F : isname c = false). { destruct (isname c) eqn:F; [|reflexivity]. apply alnum_agree in H. rewrite (isname_alnum c F), E in H. discriminate H. } rewrite F. split; reflexivity.
Qed.
Lemma run_ascii t : next_ok is_alnum is_alnum_ascii t = true -> take_while isname t = take_while is_alnum_ascii t.
Proof. intros H. apply (names_split t H). Qed.
Lemma after_ascii t : next_ok is_alnum is_alnum_ascii t = true -> drop_while isname t = drop_while is_alnum_ascii t.
Proof. intros H. apply (names_split t H). Qed.
Lemma digits_ascii t : next_ok is_digit is_digit_ascii t = true -> take_while is_digit t = take_while is_digit_ascii t /\ drop_while is_digit t = drop_while is_digit_ascii t.
Proof.
  induction t as [|c t IH]; intros H; [split; reflexivity|]. unfold next_ok in H. cbn [drop_while take_while] in *. destruct (is_digit_ascii c) eqn:E.
  - assert (F : is_digit c = true) by (rewrite is_digit_ascii_eq by (apply is_digit_ascii_lt; exact E); exact E). rewrite F. destruct (IH H) as [A B]. rewrite A, B. split; reflexivity.
  - assert (F : is_digit c = false). { pose proof (char_ok_digit false c H) as K. rewrite K. exact E. } rewrite F. split; reflexivity.
Qed.
Lemma named_exact a c0 t0 : let t := c0 :: t0 in (c0 =? 35) = false -> (a = true -> next_ok is_alnum is_alnum_ascii t = true) ->
  step_agrees a t (entity_step a t).
Proof.
  intros t Hh Hok. unfold step_agrees. unfold entity_step, charref. unfold t at 1. rewrite Hh. unfold t at 2. rewrite Hh.
  fold t. clearbody t. clear c0 t0 Hh. unfold entity_named, charref_named. rewrite longest_named_code.
  set (run := take_while isname t). set (after := drop_while isname t).
  set (name := if Nat.leb (List.length run) max_named_entity_length then run else []).
  assert (Hsplit : t = (run ++ after)%list) by apply drop_while_app.
  assert (Hrun : forallb isname run = true) by apply take_while_all.
  cbv zeta.
  destruct (list_nil_dec run) as [Erun|Hrunne].
  { (* no name at all *)
    exists [38], O. split; [rewrite Erun; reflexivity|].
    assert (Eb : legacy_prefix t (Nat.min (List.length run) max_legacy_entity_length) = None) by (rewrite Erun; reflexivity).
    rewrite Eb. assert (En : assoc name named_entities = None) by (unfold name; rewrite Erun; exact named_nil).
    rewrite En. destruct (semi after); cbn [firstn forallb]; auto. }
  rewrite match_ne by exact Hrunne.
  destruct (if semi after then assoc name named_entities else None) as [v|] eqn:Ex.
  { exists v, (S (List.length run)). split; [reflexivity|]. rewrite ends_snoc.
    rewrite Bool.andb_false_r. cbn [andb]. split; [reflexivity|]. rewrite app_length; cbn; lia. }
  set (best := legacy_prefix t (Nat.min (List.length run) max_legacy_entity_length)).
  (* the exact legacy lookup is the special case k = length of the run *)
  assert (Hexact : forall v, (if in_strs name legacy_entities then assoc name named_entities else None) = Some v ->
            name = run /\ best = Some (v, List.length run)).
  { intros v Hv. destruct (in_strs name legacy_entities) eqn:El; [|discriminate].
    assert (Hn : name = run).
    { unfold name in *. destruct (Nat.leb _ _); [reflexivity|]. rewrite legacy_nil in El. discriminate El. }
    split; [exact Hn|]. rewrite Hn in El, Hv. destruct (legacy_in_table _ El) as (w & _ & Ew & HL & _).
    unfold best. rewrite Nat.min_l by lia.
    assert (Hlen : List.length run <> O) by (destruct run; [congruence|discriminate]).
    destruct (List.length run) as [|k] eqn:Ek; [congruence|]. cbn [legacy_prefix]. rewrite <- Ek.
    assert (Hf : firstn (List.length run) t = run).
    { unfold run. rewrite (firstn_take_while isname) by lia. apply firstn_all. }
    rewrite Hf, El, Hv. reflexivity. }
  assert (Hbest : forall v k, best = Some (v, k) -> (1 <= k <= List.length run)%nat /\
             in_strs (firstn k t) legacy_entities = true /\ List.length (firstn k t) = k /\ ends [59] (firstn k t) = false).
  { intros v k Hb. destruct (legacy_prefix_Some _ _ _ _ Hb) as (Hk & Hleg & _).
    split; [lia|]. split; [exact Hleg|]. split; [|apply legacy_no_semi; exact Hleg].
    apply firstn_length_le. pose proof (take_while_length_le isname t) as HL. fold run in HL. lia. }
  destruct a.
  - (* attribute *)
    rewrite Bool.andb_false_r.
    destruct (if in_strs name legacy_entities then assoc name named_entities else None) as [v|] eqn:El.
    + destruct (Hexact v eq_refl) as [Hn Hb]. rewrite Hb. destruct (Hbest _ _ Hb) as (_ & _ & Hfl & Hse).
      rewrite Hfl, Hse. cbn [negb andb].
      assert (Hnth : nth_error t (List.length run) = match after with c :: _ => Some c | [] => None end).
      { rewrite Hsplit at 1. rewrite nth_error_app2, Nat.sub_diag by lia. destruct after; reflexivity. }
      rewrite Hnth. destruct after as [|c after'] eqn:Ea.
      * exists v, (List.length run). auto.
      * assert (Hc : is_alnum c = is_alnum_ascii c).
        { pose proof (Hok eq_refl) as K. unfold next_ok in K. rewrite <- (after_ascii _ (Hok eq_refl)) in K. fold after in K. rewrite Ea in K. apply alnum_agree. exact K. }
        rewrite Hc. rewrite Bool.orb_comm.
        destruct ((c =? 61) || is_alnum_ascii c).
        -- exists [38], O. cbn. auto.
        -- exists v, (List.length run). auto.
    + destruct best as [[v k]|] eqn:Eb.
      * destruct (Hbest _ _ eq_refl) as (Hk & Hleg & Hfl & Hse). rewrite Hfl, Hse. cbn [negb andb].
        assert (Hlt : (k < List.length run)%nat).
        { destruct (Nat.eq_dec k (List.length run)) as [->|]; [|lia]. exfalso.
          assert (Hf : firstn (List.length run) t = run).
          { unfold run. rewrite (firstn_take_while isname) by lia. apply firstn_all. }
          rewrite Hf in Hleg. destruct (legacy_in_table _ Hleg) as (w & Hin & Ew & HL & _).
          assert (Hn : name = run).
          { unfold name. destruct (Nat.leb_spec (List.length run) max_named_entity_length); [reflexivity|].
            exfalso. assert ((max_legacy_entity_length <= max_named_entity_length)%nat) by (vm_compute; lia). lia. }
          rewrite Hn, Hleg, Ew in El. discriminate. }
        destruct (nth_error run k) as [c|] eqn:En; [|apply nth_error_None in En; lia].
        assert (Hnth : nth_error t k = Some c) by (rewrite Hsplit, nth_error_app1 by lia; exact En).
        rewrite Hnth.
        assert (Hcn : isname c = true).
        { rewrite forallb_forall in Hrun; apply Hrun. eapply nth_error_In; exact En. }
        assert (Hca : is_alnum_ascii c = true).
        { unfold run in En. rewrite (run_ascii _ (Hok eq_refl)) in En. pose proof (take_while_all is_alnum_ascii t) as K. rewrite forallb_forall in K. apply K. eapply nth_error_In; exact En. }
        rewrite Hca, Bool.orb_true_r. exists [38], O. cbn. auto.
      * destruct (semi after) eqn:Hse.
        -- exists (38 :: firstn (S (List.length run)) t), (S (List.length run)). split; [reflexivity|]. split; [reflexivity|].
           destruct after as [|c after'] eqn:Ea; [discriminate|]. cbn in Hse. apply N.eqb_eq in Hse; subst c.
           rewrite Hsplit, firstn_succ_app, forallb_app. apply andb_true_intro; split; [|reflexivity].
           apply (no_amp isname); [exact isname_not_amp|exact Hrun].
        -- exists [38], O. cbn. auto.
  - (* text *)
    rewrite Bool.andb_true_r. cbn [andb].
    destruct best as [[v k]|] eqn:Eb.
    + destruct (Hbest _ _ eq_refl) as (Hk & Hleg & Hfl & Hse). rewrite Hfl.
      exists v, k. split; [|auto].
      destruct (semi after); [reflexivity|].
      destruct (if in_strs name legacy_entities then assoc name named_entities else None) as [v'|] eqn:El; [|reflexivity].
      destruct (Hexact v' eq_refl) as [_ Hb]. congruence.
    + replace (if semi after then None else None) with (@None (str * nat)) by (destruct (semi after); reflexivity).
      destruct (if in_strs name legacy_entities then assoc name named_entities else None) as [v'|] eqn:El.
      { destruct (Hexact v' eq_refl) as [_ Hb]. congruence. }
      destruct (semi after) eqn:Hse.
      * exists (38 :: firstn (S (List.length run)) t), (S (List.length run)). split; [reflexivity|]. split; [reflexivity|].
        destruct after as [|c after'] eqn:Ea; [discriminate|]. cbn in Hse. apply N.eqb_eq in Hse; subst c.
        rewrite Hsplit, firstn_succ_app, forallb_app. apply andb_true_intro; split; [|reflexivity].
        apply (no_amp isname); [exact isname_not_amp|exact Hrun].
      * exists [38], O. cbn. auto.
Qed.

Lemma numeric_exact a t1 : next_ok is_digit is_digit_ascii t1 = true -> step_agrees a (35 :: t1) (entity_step a (35 :: t1)).
Proof.
  intros Hok. unfold step_agrees. cbn [entity_step charref]. change (35 =? 35) with true. cbv iota. unfold entity_numeric, charref_numeric.
  set (is_hex := match t1 with x :: _ => (x =? 120) || (x =? 88) | [] => false end).
  assert (Hx : is_hex = true -> exists x t', t1 = x :: t' /\ (x =? 38) = false).
  { unfold is_hex. destruct t1 as [|x t']; [discriminate|]. intros H; exists x, t'; split; [reflexivity|lia]. }
  destruct is_hex.
  - destruct (Hx eq_refl) as (x & t' & -> & Hx38). cbn [tl].
    pose proof (take_while_all is_hex_ascii t') as Hall.
    rewrite semi_len_semi. destruct (take_while is_hex_ascii t') as [|d ds] eqn:Ed.
    + destruct (semi (drop_while is_hex_ascii t')) eqn:Hs.
      * eexists; exists 3%nat; split; [reflexivity|]; split; [reflexivity|].
        assert (exists q, t' = 59 :: q) as (q & ->).
        { pose proof (drop_while_app is_hex_ascii t') as E. rewrite Ed in E. cbn in E. rewrite <- E in Hs.
          destruct t' as [|c q]; [discriminate|]. cbn in Hs. exists q. f_equal. lia. }
        cbn. rewrite Hx38. reflexivity.
      * eexists; exists 2%nat; split; [reflexivity|]; split; [reflexivity|]. cbn. rewrite Hx38. reflexivity.
    + rewrite (decode_numeric_spec true) by (try discriminate; exact Hall).
      eexists; eexists; split; [reflexivity|]. split; [reflexivity|]. destruct (semi _); cbn; lia.
  - destruct (digits_ascii t1 Hok) as [Dt Dd]. rewrite <- Dt, <- Dd.
    assert (Hall : forallb (isdig false) (take_while is_digit t1) = true) by (rewrite Dt; apply take_while_all).
    rewrite semi_len_semi. destruct (take_while is_digit t1) as [|d ds] eqn:Ed.
    + destruct (semi (drop_while is_digit t1)) eqn:Hs.
      * eexists; exists 2%nat; split; [reflexivity|]; split; [reflexivity|].
        assert (exists q, t1 = 59 :: q) as (q & ->).
        { pose proof (drop_while_app is_digit t1) as E. rewrite Ed in E. cbn in E. rewrite <- E in Hs.
          destruct t1 as [|c q]; [discriminate|]. cbn in Hs. exists q. f_equal. lia. }
        cbn. reflexivity.
      * eexists; exists 1%nat; split; [reflexivity|]; split; reflexivity.
    + rewrite (decode_numeric_spec false) by (try discriminate; exact Hall).
      eexists; eexists; split; [reflexivity|]. split; [reflexivity|]. destruct (semi _); cbn; lia.
Qed.


(* t is what follows an ampersand *)
Definition ref_ok (in_attribute : bool) (t : str) : bool :=
  match t with
  | [] => true
  | c :: t1 => if c =? 35 then next_ok is_digit is_digit_ascii t1 else negb in_attribute || next_ok is_alnum is_alnum_ascii t
  end.
Definition refs_ok (a : bool) (s : str) : Prop := forall p t, s = p ++ 38 :: t -> ref_ok a t = true.
Lemma refs_tl a c t : refs_ok a (c :: t) -> refs_ok a t.
Proof. intros H p q E. apply (H (c :: p)). rewrite E. reflexivity. Qed.
Lemma decode_exact a s : refs_ok a s -> forall skip, decode_go a skip s = Some (decode_spec_go a skip s).
Proof.
  induction s as [|c t IH]; [reflexivity|]. intros H. pose proof (refs_tl _ _ _ H) as Ht.
  intros [|k]; cbn [decode_go decode_spec_go]; [|apply IH; exact Ht].
  destruct (c =? 38) eqn:E38; [|rewrite IH by exact Ht; reflexivity].
  assert (Hs : step_agrees a t (entity_step a t)).
  { apply N.eqb_eq in E38; subst c. specialize (H [] t eq_refl). destruct t as [|x t1]; [exists [38], O; cbn; auto|]. cbn [ref_ok] in H. destruct (x =? 35) eqn:Eh.
    - apply N.eqb_eq in Eh; subst x. apply numeric_exact. exact H.
    - apply named_exact; [exact Eh|]. intros ->. exact H. }
  destruct Hs as (w & n & -> & Hw). rewrite IH by exact Ht. cbn [option_map]. f_equal.
  destruct (charref a t) as [[v m]|].
  - destruct Hw as [-> ->]. reflexivity.
  - destruct Hw as [-> Hf]. cbn [app]. apply N.eqb_eq in E38; subst c. f_equal.
    symmetry. apply decode_spec_flush; exact Hf.
Qed.
Lemma c27_exact a s : refs_ok a s -> decode_entities_in_text s a = Some (decode_spec a s).
Proof. intros H. apply decode_exact. exact H. Qed.
