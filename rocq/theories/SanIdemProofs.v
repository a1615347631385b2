(* C24: idempotence. *)
From Coq Require Import Lia ZifyBool ZifyN.
From Verif Require Import Str StrFacts UnicodeTables SerializerModel UrlModel UrlHostProofs UrlListProofs UrlIdemProofs CssModel CssFinal SanModel SanSpec SanFacts SanFuel SanProofs SanAttrProofs SanTreeProofs SanDropProofs SanContentProofs SanCleanProofs SanCleanFinal.
Open Scope N_scope.

(* ---- lower-casing twice ---- *)
Definition fixed_char (d : N) : bool := (str_eqb (lower_c d) [d]) && negb (is_space d) && negb (is_invisible d).
(* only the steps that occur *)
Definition entry_ok (e : N * N * N * N) : bool :=
  let '(lo, hi, step, img) := e in
  forallb (fun k => negb ((N.of_nat k) mod step =? 0) || fixed_char (img + N.of_nat k)) (seq 0 (S (N.to_nat (hi - lo)))).
Lemma entries_ok : forallb entry_ok lower_entries = true.
Proof. vm_compute. reflexivity. Qed.
Lemma lookup_fixed l c d : forallb entry_ok l = true -> lower_lookup l c = Some d -> fixed_char d = true.
Proof.
  induction l as [|[[[lo hi] step] img] l IH]; intros H E; [discriminate E|]. cbn [forallb] in H. apply andb_prop in H. destruct H as [H1 H2]. cbn [lower_lookup] in E.
  destruct ((lo <=? c) && (c <=? hi) && ((c - lo) mod step =? 0)) eqn:B; [|exact (IH H2 E)].
  apply andb_prop in B. destruct B as [B B3]. apply andb_prop in B. destruct B as [B1 B2]. assert (d = img + (c - lo)) as -> by congruence.
  unfold entry_ok in H1. rewrite forallb_forall in H1. specialize (H1 (N.to_nat (c - lo))). rewrite N2Nat.id in H1. rewrite B3 in H1. cbn [negb orb] in H1. apply H1.
  apply in_seq. lia.
Qed.
Lemma lower_c_image c d : In d (lower_c c) -> fixed_char d = true \/ (d = c /\ lower_c c = [c]).
Proof.
  unfold lower_c. destruct (c <? 128) eqn:Ec.
  - intros [<-|[]]. assert (Hc : c < 128) by lia.
    pose proof (ascii_check (fun x => fixed_char (alow_c x) || str_eqb [alow_c x] [x]) ltac:(vm_compute; reflexivity) c Hc) as G. cbv beta in G.
    apply orb_prop in G. destruct G as [G|G]; [left; exact G|right]. apply str_eqb_eq in G. split; [|exact G]. congruence.
  - destruct (c =? 304) eqn:E3; [intros [<-|[<-|[]]]; left; vm_compute; reflexivity|].
    destruct (lower_lookup lower_entries c) as [d'|] eqn:El.
    + intros [<-|[]]. left. eapply lookup_fixed; [exact entries_ok|exact El].
    + intros [<-|[]]. right. auto.
Qed.
Lemma lower_c_idem c d : In d (lower_c c) -> lower_c d = [d].
Proof.
  intros H. apply lower_c_image in H. destruct H as [H|[-> H]]; [|exact H]. unfold fixed_char in H. apply andb_prop in H. destruct H as [H _]. apply andb_prop in H. destruct H as [H _].
  apply str_eqb_eq. exact H.
Qed.
Lemma lower_fix s : (forall c, In c s -> lower_c c = [c]) -> lower s = s.
Proof.
  unfold lower. induction s as [|c s IH]; intros H; [reflexivity|]. cbn [flat_map]. rewrite (H c (or_introl eq_refl)). cbn [app]. f_equal. apply IH. intros x Hx. apply H. right. exact Hx.
Qed.
Lemma lower_idem s : lower (lower s) = lower s.
Proof. apply lower_fix. intros c Hc. unfold lower in Hc. apply in_flat_map in Hc. destruct Hc as (x & _ & Hx). eapply lower_c_idem. exact Hx. Qed.
Lemma lower_not_space s : (forall c, In c s -> is_space c = false) -> forall c, In c (lower s) -> is_space c = false.
Proof.
  intros H c Hc. unfold lower in Hc. apply in_flat_map in Hc. destruct Hc as (x & Hs & Hx). apply lower_c_image in Hx. destruct Hx as [Hx|[-> _]]; [|apply H; exact Hs].
  unfold fixed_char in Hx. apply andb_prop in Hx. destruct Hx as [Hx _]. apply andb_prop in Hx. destruct Hx as [_ Hx]. apply negb_true_iff. exact Hx.
Qed.
Lemma lower_visible s : (forall c, In c s -> is_invisible c = false) -> forall c, In c (lower s) -> is_invisible c = false.
Proof.
  intros H c Hc. unfold lower in Hc. apply in_flat_map in Hc. destruct Hc as (x & Hs & Hx). apply lower_c_image in Hx. destruct Hx as [Hx|[-> _]]; [|apply H; exact Hs].
  unfold fixed_char in Hx. apply andb_prop in Hx. destruct Hx as [_ Hx]. apply negb_true_iff. exact Hx.
Qed.

(* ---- rel tokens ---- *)
Definition word (w : str) : Prop := w <> [] /\ lower w = w /\ forall c, In c w -> is_space c = false.
Lemma add_token_inv (P : str -> Prop) ts : forall acc, (forall t, In t ts -> P t) -> NoDup acc -> (forall t, In t acc -> P t) ->
  NoDup (fold_left add_token ts acc) /\ (forall t, In t (fold_left add_token ts acc) -> P t) /\ incl acc (fold_left add_token ts acc) /\ incl ts (fold_left add_token ts acc).
Proof.
  induction ts as [|t ts IH]; intros acc H ND HA; cbn [fold_left].
  - repeat split; auto; [apply incl_refl|intros x []].
  - assert (A : NoDup (add_token acc t) /\ (forall x, In x (add_token acc t) -> P x) /\ incl acc (add_token acc t) /\ In t (add_token acc t)).
    { unfold add_token. destruct (in_strs t acc) eqn:E; [repeat split; auto; [apply incl_refl|apply in_strs_In; exact E]|]. apply in_strs_not in E. split; [|split; [|split]].
      - apply NoDup_snoc; assumption.
      - intros x Hx. apply in_app_or in Hx. destruct Hx as [Hx|[<-|[]]]; [apply HA; exact Hx|apply H; left; reflexivity].
      - apply incl_appl, incl_refl.
      - apply in_or_app. right. left. reflexivity. }
    destruct A as (A1 & A2 & A3 & A4). destruct (IH (add_token acc t)) as (B1 & B2 & B3 & B4); [intros x Hx; apply H; right; exact Hx|exact A1|exact A2|].
    split; [exact B1|]. split; [exact B2|]. split; [eapply incl_tran; eassumption|]. intros x [<-|Hx]; [apply B3, A4|apply B4, Hx].
Qed.
Lemma rel_step_inv (P : str -> Prop) ts : forall acc, (forall t, In t ts -> lower (strip t) <> [] -> P (lower (strip t))) -> NoDup acc -> (forall t, In t acc -> P t) ->
  NoDup (fold_left rel_step ts acc) /\ (forall t, In t (fold_left rel_step ts acc) -> P t).
Proof.
  induction ts as [|t ts IH]; intros acc H ND HA; cbn [fold_left]; [auto|].
  assert (A : NoDup (rel_step acc t) /\ (forall x, In x (rel_step acc t) -> P x)).
  { unfold rel_step. destruct (lower (strip t)) as [|c w] eqn:E; [auto|].
    assert (Pw : P (c :: w)) by (rewrite <- E; apply H; [left; reflexivity|rewrite E; discriminate]).
    destruct (add_token_inv P [c :: w] acc) as (B1 & B2 & _); [intros x [<-|[]]; exact Pw|exact ND|exact HA|]. cbn [fold_left] in B1, B2. auto. }
  destruct A as [A1 A2]. apply IH; [intros x Hx; apply H; right; exact Hx|exact A1|exact A2].
Qed.
Lemma split_ws_incl s w : In w (split_ws s) -> incl w s.
Proof.
  unfold split_ws. assert (G : forall s acc, In w (split_by_go is_space acc s) -> incl w (acc ++ s)).
  { clear s. induction s as [|c s IH]; intros acc H; cbn [split_by_go] in H.
    - destruct acc; [destruct H|]. destruct H as [<-|[]]. rewrite app_nil_r. intros x Hx. apply in_rev. exact Hx.
    - destruct (is_space c).
      + assert (T : In w (split_by_go is_space [] s) -> incl w (acc ++ c :: s)) by (intros Q; apply incl_appr, incl_tl; exact (IH [] Q)).
        destruct acc as [|a acc]; [exact (T H)|]. destruct H as [<-|H]; [|exact (T H)]. apply incl_appl. intros x Hx. apply in_rev. exact Hx.
      + intros x Hx. apply IH in H. apply H in Hx. apply in_app_or in Hx. apply in_or_app. destruct Hx as [[<-|Hx]|Hx]; [right; left; reflexivity|left; exact Hx|right; right; exact Hx]. }
  intros H. exact (G s [] H).
Qed.
Lemma rel_tokens_inv (Q : N -> Prop) (a : attr_list) : (forall v c, In (u "rel", Some v) a -> In c v -> is_space c = false -> Q c) -> (forall x c, Q x -> In c (lower_c x) -> Q c) -> lower_keys a ->
  NoDup (rel_tokens a) /\ forall w, In w (rel_tokens a) -> word w /\ forall c, In c w -> Q c.
Proof.
  intros HQ HL LK. rewrite rel_tokens_eq.
  assert (G : forall l acc, incl l a -> NoDup acc -> (forall w, In w acc -> word w /\ forall c, In c w -> Q c) ->
     NoDup (fold_left rel_attr l acc) /\ forall w, In w (fold_left rel_attr l acc) -> word w /\ forall c, In c w -> Q c).
  { induction l as [|[k v] l IH]; intros acc Hi ND HA; cbn [fold_left]; [auto|].
    assert (A : NoDup (rel_attr acc (k, v)) /\ forall w, In w (rel_attr acc (k, v)) -> word w /\ forall c, In c w -> Q c).
    { unfold rel_attr. cbn [fst snd]. destruct (str_eqb_spec (lower k) (u "rel")) as [Ek|]; [|auto]. destruct v as [v|]; [|auto].
      apply (rel_step_inv (fun w => word w /\ forall c, In c w -> Q c)); [|exact ND|exact HA].
      intros t Ht Hne. pose proof (split_ws_no _ _ Ht) as Sp. rewrite (strip_no_space t Sp) in *. split.
      - split; [exact Hne|]. split; [apply lower_idem|apply lower_not_space; exact Sp].
      - intros c Hc. unfold lower in Hc. apply in_flat_map in Hc. destruct Hc as (x & Hx & Hc). apply (HL x c); [|exact Hc].
        apply (HQ v); [|eapply split_ws_incl; eassumption|apply Sp; exact Hx].
        assert (E : k = u "rel"). { rewrite <- Ek. symmetry. apply LK. apply in_map_iff. exists (k, Some v). split; [reflexivity|]. apply Hi. left. reflexivity. }
        rewrite <- E. apply Hi. left. reflexivity. }
    destruct A as [A1 A2]. apply IH; [intros x Hx; apply Hi; right; exact Hx|exact A1|exact A2]. }
  apply G; [apply incl_refl|constructor|intros w []].
Qed.
Lemma join_visible ws : (forall w, In w ws -> forall c, In c w -> is_invisible c = false) -> strip_invisible (join [32] ws) = join [32] ws.
Proof.
  intros H. apply strip_invisible_none. intros c Hc. induction ws as [|w ws IH]; [destruct Hc|]. destruct ws as [|w2 ws].
  - exact (H w (or_introl eq_refl) c Hc).
  - change (join [32] (w :: w2 :: ws)) with (w ++ [32] ++ join [32] (w2 :: ws))%list in Hc. apply in_app_or in Hc. destruct Hc as [Hc|Hc]; [exact (H w (or_introl eq_refl) c Hc)|].
    destruct Hc as [<-|Hc]; [reflexivity|]. apply IH; [intros x Hx; apply H; right; exact Hx|exact Hc].
Qed.
Lemma visible_of s : strip_invisible s = s -> forall c, In c s -> is_invisible c = false.
Proof. intros H c Hc. rewrite <- H in Hc. eapply strip_invisible_no. exact Hc. Qed.

Section Idem.
Variable py : urllib.
Variable p : policy.
Hypothesis Hv : valid_policy p.
Hypothesis Hs : stable_policy py p.
Hypothesis Hd : dict_policy p.

Lemma allowed_nonempty name k : In k (allowed_for (effective_allowed p) name) -> k <> [].
Proof.
  intros H. apply allowed_for_attr in H. destruct Hd as (_ & _ & D3). destruct H as [(t & l & _ & Hl & Hk)|(-> & _)]; [eapply D3; eassumption|discriminate].
Qed.
Lemma allowlist_values i name a b fs : allowlist_attrs p i name a = Ok b fs -> forall k v, In (k, v) b -> exists k', In (k', v) a.
Proof.
  intros H. unfold allowlist_attrs in H. match type of H with (if ?x then _ else _) = _ => destruct x end.
  { assert (b = a) as -> by congruence. intros k v Hk. exists k. exact Hk. }
  assert (G : forall l out c o c' f, allowlist_loop i (allowed_for (effective_allowed p) name) l out c = (o, c', f) ->
     forall P : option str -> Prop, (forall k v, In (k, v) l -> P v) -> (forall k v, In (k, v) out -> P v) -> (forall k v, In (k, v) o -> P v)).
  { induction l as [|[k v] l IH]; intros out c o c' f E P H1 H2; cbn [allowlist_loop] in E; [injection E as <- _ _; exact H2|].
    assert (H1' : forall k v, In (k, v) l -> P v) by (intros k0 v0 Q; eapply H1; right; exact Q).
    assert (D : forall key k0 v0, In (k0, v0) (dict_set key v out) -> P v0).
    { intros key k0 v0 Q. apply dict_set_In in Q. destruct Q as [Q|[Q _]]; [injection Q as -> ->; eapply H1; left; reflexivity|eapply H2; exact Q]. }
    destruct (strip k); [eapply IH; eassumption|]. destruct (in_strs k _); [eapply IH; [exact E|exact H1'|apply D]|].
    destruct (in_strs (lower k) _); [eapply IH; [exact E|exact H1'|apply D]|].
    destruct (allowlist_loop i (allowed_for (effective_allowed p) name) l out true) as [[o2 c2] f2] eqn:E2. injection E as <- _ _. eapply IH; eassumption. }
  destruct (allowlist_loop i (allowed_for (effective_allowed p) name) a [] false) as [[o c'] f] eqn:E.
  assert (Pb : b = if c' then o else a) by congruence. destruct c'; subst b; [|intros k v Hk; exists k; exact Hk].
  intros k v Hk. apply (G _ _ _ _ _ _ E (fun v => exists k', In (k', v) a)) with (k := k); [intros k0 v0 Q; exists k0; exact Q|intros k0 v0 []|exact Hk].
Qed.
Lemma strip_attrs_values i (a : attr_list) k s : In (k, Some s) (fst (strip_attrs i a)) -> strip_invisible s = s.
Proof.
  unfold strip_attrs. cbn [fst]. intros H. apply in_map_iff in H. destruct H as ([k' [v|]] & E & _); cbn [fst snd strip_value option_map] in E; [|discriminate E].
  assert (s = strip_invisible v) as -> by congruence. apply strip_invisible_idem.
Qed.
Lemma no_rule tag k : In k [u "style"; u "rel"; u "http-equiv"; u "name"] -> rule_for (pol_url p) tag k = None.
Proof.
  intros H. destruct (rule_for (pol_url p) tag k) as [r|] eqn:E; [|reflexivity]. exfalso. apply rule_for_In in E. destruct E as (t & _ & E).
  destruct Hs as (_ & _ & N & _). exact (N t k r E H).
Qed.
Lemma not_sink4 k : In k [u "style"; u "rel"; u "http-equiv"; u "name"] -> is_sink_attr k = false /\ lower k = k.
Proof. cbn [In]. intros [<-|[<-|[<-|[<-|[]]]]]; split; reflexivity. Qed.
Lemma leave4 tag all k v : In k [u "style"; u "rel"; u "http-equiv"; u "name"] -> url_attr py (pol_url p) tag all k v = VLeave.
Proof. intros H. destruct (not_sink4 k H) as [A B]. unfold url_attr. rewrite B, A, (no_rule tag k H). reflexivity. Qed.
(* the guards see the same attributes before and after *)
Lemma guard_same g vals (a b : attr_list) : lower_keys a -> lower_keys b -> NoDup (map fst a) -> NoDup (map fst b) -> lower g = g ->
  (forall v, In (g, v) a <-> In (g, v) b) -> guard_holds g vals a = guard_holds g vals b.
Proof.
  intros La Lb Na Nb Lg H. destruct (guard_holds g vals a) eqn:Ea.
  - symmetry. destruct (guard_holds_inv g vals a La Ea) as (hv & A & B). eapply guard_holds_In; [exact Lb|exact Nb|exact Lg|apply H; exact A|exact B].
  - destruct (guard_holds g vals b) eqn:Eb; [|reflexivity]. destruct (guard_holds_inv g vals b Lb Eb) as (hv & A & B).
    assert (Q : guard_holds g vals a = true) by (eapply guard_holds_In; [exact La|exact Na|exact Lg|apply H; exact A|exact B]). congruence.
Qed.
Lemma sink_kind_same tag k (a b : attr_list) : lower_keys a -> lower_keys b -> NoDup (map fst a) -> NoDup (map fst b) ->
  (forall g v, In g [u "http-equiv"; u "name"] -> In (g, v) a <-> In (g, v) b) -> sink_kind_for tag k a = sink_kind_for tag k b.
Proof.
  intros La Lb Na Nb H. unfold sink_kind_for. assert (G : forall s, incl s url_sinks -> sink_kind_in s tag k a = sink_kind_in s tag k b); [|apply G, incl_refl].
  induction s as [|[[[kd t] at_] g] s IH]; intros Hi; [reflexivity|]. cbn [sink_kind_in].
  rewrite IH by (intros x Hx; apply Hi; right; exact Hx). destruct (str_eqb k at_ && _); [|reflexivity].
  destruct g as [[ga vals]|]; [|reflexivity]. destruct (sinks_split _ _ _ _ (Hi _ (or_introl eq_refl))) as [(Q & _)|(ga' & vals' & E & Hg & _)]; [discriminate Q|].
  assert (ga' = ga) as -> by congruence. assert (F : In ga [u "http-equiv"; u "name"] /\ lower ga = ga).
  { destruct Hg as [Hg|[Hg|[]]]; injection Hg as _ _ _ <- _; split; try reflexivity; [left; reflexivity|right; left; reflexivity]. }
  destruct F as [F1 F2]. rewrite (guard_same ga vals a b); auto.
Qed.
Lemma rule_for_In' tag k r : rule_for (pol_url p) tag k = Some r -> exists t, In (t, k, r) (allow_rules (pol_url p)).
Proof. intros H. apply rule_for_In in H. destruct H as (t & _ & H). exists t. exact H. Qed.

Lemma kind_of_sink name (a : attr_list) k kind : lower_keys a -> (if is_sink_attr k then sink_kind_for (lower name) k a else Some KUrl) = Some kind -> kind_of k kind.
Proof.
  intros LK H. destruct (is_sink_attr k); [|right; right; congruence]. apply (sink_kind_url p) in H; [|exact LK]. destruct H as [kind H|kind g vals hv H _ _|r _ _ _ _].
  - left. exact H.
  - right. left. eauto.
  - right. right. reflexivity.
Qed.
Lemma rel_allowed name : lower name = u "a" -> force_link_rel p <> [] -> In (u "rel") (allowed_for (effective_allowed p) name).
Proof.
  intros Hn Hf. destruct (str_eqb_spec name (u "a")) as [->|Nn]; [apply effective_rel; exact Hf|].
  assert (N1 : str_eqb name [42] = false) by (apply str_eqb_neq; intros ->; discriminate Hn).
  assert (N2 : assoc name (effective_allowed p) = None).
  { destruct (assoc name (effective_allowed p)) as [l|] eqn:E; [|reflexivity]. exfalso. apply assoc_In in E. apply effective_In in E.
    destruct Hs as (_ & _ & _ & _ & _ & Hl). destruct E as [E|E]; [apply Nn; rewrite <- Hn; symmetry; eapply Hl; exact E|]. destruct E as [E _]. congruence. }
  pose proof (effective_rel p Hf) as G. unfold allowed_for in G |- *. rewrite N1, N2. cbn [option_map]. rewrite Hn.
  change (str_eqb (u "a") [42]) with false in *. cbv iota in *. change (lower (u "a")) with (u "a") in G. change (str_eqb (u "a") [42]) with false in G. cbv iota in G.
  destruct (assoc (u "a") (effective_allowed p)); exact G.
Qed.

Lemma final_gives_fixed i name a0 a fs : NoDup (map fst a0) -> final_attrs py p i name a0 = Ok a fs -> fixed py p name a.
Proof.
  intros ND0 H. unfold final_attrs in H. apply bind_Ok in H. destruct H as (a1 & f1 & f2 & H1 & H & _).
  assert (ND1 : NoDup (map fst a1) /\ (pol_strip_invisible p = true -> forall k s, In (k, Some s) a1 -> strip_invisible s = s)).
  { destruct (pol_strip_invisible p).
    - assert (E1 : a1 = fst (strip_attrs i a0)) by congruence. split.
      + rewrite E1. unfold strip_attrs. cbn [fst]. rewrite map_map. cbn [fst]. exact ND0.
      + intros _ k s Q. rewrite E1 in Q. eapply strip_attrs_values. exact Q.
    - assert (E1 : a1 = a0) by congruence. rewrite E1. split; [exact ND0|]. discriminate. }
  destruct ND1 as [ND1 V1].
  clear H1. apply bind_Ok in H. destruct H as (a4 & f3 & f4 & H & H4 & _). unfold edit_attrs in H.
  apply bind_Ok in H. destruct H as (a2 & f5 & f6 & H2 & H & _). apply bind_Ok in H. destruct H as (a3 & f7 & f8 & H3 & H & _).
  destruct (allowlist_keys _ _ _ _ _ _ H2 ND1) as [ND2 K2].
  assert (V2 : pol_strip_invisible p = true -> forall k s, In (k, Some s) a2 -> strip_invisible s = s).
  { intros Es k s Q. destruct (allowlist_values _ _ _ _ _ H2 _ _ Q) as (k' & Q'). eapply V1; eassumption. }
  assert (L2 : lower_keys a2) by (intros k Hk; eapply attr_allowed_lower; [exact Hv|apply allowed_for_attr; auto]).
  destruct (drop_url_simple _ _ _ _ _ _ _ L2 ND2 H3) as [E3 NE]. assert (ND3 : NoDup (map fst a3)) by (rewrite E3; apply url_result_NoDup; exact ND2).
  assert (I3 : forall k v, In (k, v) a3 -> exists v0, In (k, v0) a2 /\ ((v = v0 /\ url_attr py (pol_url p) (lower name) a2 k v0 = VLeave) \/
                              exists s, v = Some s /\ url_attr py (pol_url p) (lower name) a2 k v0 = VSet s)).
  { intros k v Hkv. rewrite E3 in Hkv. apply url_result_In in Hkv. destruct Hkv as (v0 & Hv0 & [Q|[Q|Q]]); eauto. exfalso. exact (NE _ _ Hv0 Q). }
  assert (J3 : forall k v, In k [u "style"; u "rel"; u "http-equiv"; u "name"] -> In (k, v) a2 <-> In (k, v) a3).
  { intros k v Hk. split.
    - intros Q. rewrite E3. unfold url_result. apply in_flat_map. exists (k, v). split; [exact Q|]. cbn [fst snd]. rewrite (leave4 _ _ _ _ Hk). left. reflexivity.
    - intros Q. apply I3 in Q. destruct Q as (v0 & Q & [[-> _]|(s & _ & E)]); [exact Q|]. rewrite (leave4 _ _ _ _ Hk) in E. discriminate E. }
  assert (K3 : forall k, In k (map fst a3) -> In k (map fst a2)).
  { intros k Hk. apply in_map_iff in Hk. destruct Hk as ([k' v] & <- & Hk). apply I3 in Hk. destruct Hk as (v0 & Hk & _). apply in_map_iff. exists (k', v0). auto. }
  assert (L3 : lower_keys a3) by (intros k Hk; apply L2, K3; exact Hk).
  assert (S4 : NoDup (map fst a4) /\ (forall k v, k <> u "style" -> In (k, v) a4 <-> In (k, v) a3) /\
     (forall v, In (u "style", v) a4 -> allowed_css p <> [] /\ exists s, v = Some s /\ style_checked py p name s) /\ (forall k, In k (map fst a4) -> In k (map fst a3))).
  { destruct (allowed_css p) as [|c cs] eqn:Ec.
    - assert (a4 = a3) as -> by congruence. split; [exact ND3|]. split; [reflexivity|]. split; [|auto]. intros v Hvv. exfalso.
      assert (Hk : In (u "style") (map fst a3)) by (apply in_map_iff; eexists; split; [|exact Hvv]; reflexivity).
      eapply attr_allowed_style; [exact Hv|apply allowed_for_attr, K2, K3, Hk|reflexivity|exact Ec].
    - destruct (style_result _ _ _ _ _ _ _ L3 ND3 H) as (A & B & C & D). split; [exact A|]. split; [exact B|]. split; [|exact D]. intros v Q. split; [discriminate|exact (C v Q)]. }
  clear H. destruct S4 as (ND4 & O4 & St4 & K4).
  assert (L4 : lower_keys a4) by (intros k Hk; apply L3, K4; exact Hk).
  destruct Hs as (U & St & _ & RW & RV & _).
  (* values *)
  assert (V4 : pol_strip_invisible p = true -> forall k s, In (k, Some s) a4 -> strip_invisible s = s).
  { intros Es k s Q. destruct (str_eqb_spec k (u "style")) as [->|Nk].
    - destruct (St4 _ Q) as (Nc & s' & E & raw & Er). assert (s' = s) as -> by congruence. destruct (St _ _ _ Nc Er) as [_ G]. exact (G Es).
    - apply O4 in Q; [|exact Nk]. apply I3 in Q. destruct Q as (v0 & Q & [[<- _]|(s' & E & Eu)]); [eapply V2; eassumption|].
      assert (Lk : lower k = k) by (apply L2; apply in_map_iff; exists (k, v0); auto).
      assert (s' = s) as -> by congruence. unfold url_attr in Eu. rewrite Lk in Eu. destruct (negb _ && _); [discriminate Eu|].
      destruct (if is_sink_attr k then _ else _) as [kind|] eqn:Eki; [|discriminate Eu]. apply kind_of_sink in Eki; [|exact L2].
      destruct v0 as [v0|]; [|discriminate Eu]. destruct (rule_for (pol_url p) (lower name) k) as [r|] eqn:Er; [|discriminate Eu].
      destruct (sanitize_sink _ _ _ _ _ _ _) as [|s''|] eqn:Ek; try discriminate Eu. assert (s'' = s) as -> by congruence.
      apply rule_for_In' in Er. destruct Er as (t & Er). destruct (U _ _ _ _ _ _ _ Er Eki Ek) as [_ G]. exact (G Es). }
  (* urls *)
  assert (U4 : forall b : attr_list, lower_keys b -> NoDup (map fst b) -> (forall g v, In g [u "http-equiv"; u "name"] -> In (g, v) b <-> In (g, v) a2) ->
     forall k v, In (k, v) a4 -> url_attr py (pol_url p) (lower name) b k v = VLeave \/ exists s, v = Some s /\ url_attr py (pol_url p) (lower name) b k v = VSet s).
  { intros b Lb Nb Hb k v Q. destruct (str_eqb_spec k (u "style")) as [->|Nk]; [left; apply leave4; left; reflexivity|].
    apply O4 in Q; [|exact Nk]. apply I3 in Q. destruct Q as (v0 & Q & D).
    assert (Lk : lower k = k) by (apply L2; apply in_map_iff; exists (k, v0); auto).
    unfold url_attr in D |- *. rewrite Lk in *. rewrite <- (sink_kind_same (lower name) k a2 b L2 Lb ND2 Nb) by (intros g v1 Hg; symmetry; apply Hb; exact Hg).
    destruct (negb (is_sink_attr k) && _); [left; reflexivity|]. destruct (if is_sink_attr k then _ else _) as [kind|] eqn:Eki; [|left; reflexivity]. right. apply kind_of_sink in Eki; [|exact L2].
    destruct v0 as [v0|]; [|destruct D as [[_ D]|(s & _ & D)]; discriminate D].
    destruct (rule_for (pol_url p) (lower name) k) as [r|] eqn:Er; [|destruct D as [[_ D]|(s & _ & D)]; discriminate D].
    destruct (sanitize_sink py (pol_url p) r (lower name) k kind v0) as [|s''|] eqn:Ek; try (destruct D as [[_ D]|(s & _ & D)]; discriminate D).
    destruct D as [[_ D]|(s & -> & D)]; [discriminate D|]. assert (s'' = s) as -> by congruence. exists s. split; [reflexivity|].
    apply rule_for_In' in Er. destruct Er as (t & Er). destruct (U _ _ _ _ _ _ _ Er Eki Ek) as [-> _]. reflexivity. }
  assert (A4 : forall k, In k (map fst a4) -> k <> [] /\ In k (allowed_for (effective_allowed p) name)).
  { intros k Hk. assert (Q : In k (allowed_for (effective_allowed p) name)) by (apply K2, K3, K4; exact Hk). split; [eapply allowed_nonempty; exact Q|exact Q]. }
  assert (SS : forall v, In (u "style", v) a4 -> exists s, v = Some s /\ sanitize_inline_style py (allowed_css p) s (lower name) (Some (pol_url p)) = Keep s).
  { intros v Q. destruct (St4 _ Q) as (Nc & s & -> & raw & Er). exists s. split; [reflexivity|]. exact (proj1 (St _ _ _ Nc Er)). }
  assert (G4 : forall g v, In g [u "http-equiv"; u "name"] -> In (g, v) a4 <-> In (g, v) a2).
  { intros g v Hg. assert (N : g <> u "style") by (destruct Hg as [<-|[<-|[]]]; discriminate). rewrite (O4 g v N). symmetry. apply J3. right. right. exact Hg. }
  destruct (force_link_rel p) as [|tk tks] eqn:Ef.
  { assert (a = a4) as -> by congruence. split; [exact ND4|]. split; [exact L4|]. split; [exact V4|]. split; [exact A4|]. split; [|split].
    - intros k v Q. apply U4; assumption.
    - intros _. exact SS.
    - rewrite Ef. congruence. }
  assert (Ea : a = merge_rel (force_link_rel p) name a4) by (rewrite Ef; congruence). clear H4. rewrite <- Ef in *.
  destruct (str_eqb_spec (lower name) (u "a")) as [Hn|Hn].
  2:{ rewrite merge_rel_other in Ea by exact Hn. subst a. split; [exact ND4|]. split; [exact L4|]. split; [exact V4|]. split; [exact A4|]. split; [|split].
      - intros k v Q. apply U4; assumption.
      - intros _. exact SS.
      - intros _. apply merge_rel_other. exact Hn. }
  set (ws := fold_left add_token (force_link_rel p) (rel_tokens a4)) in *.
  assert (In4 : forall v, In (u "rel", Some v) a4 -> pol_strip_invisible p = true -> strip_invisible v = v) by (intros v Q Es; eapply V4; eassumption).
  destruct (rel_tokens_inv (fun c => pol_strip_invisible p = true -> is_invisible c = false) a4) as [R1 R2].
  { intros v c Q Hc _ Es. eapply visible_of; [apply (In4 v Q Es)|exact Hc]. }
  { intros x c Hx Hc Es. apply (lower_visible [x]); [intros y [<-|[]]; exact (Hx Es)|]. unfold lower. cbn [flat_map]. rewrite app_nil_r. exact Hc. }
  { exact L4. }
  destruct RW as [RW1 RW2].
  destruct (add_token_inv (fun w => word w /\ forall c, In c w -> pol_strip_invisible p = true -> is_invisible c = false) (force_link_rel p) (rel_tokens a4)) as (W1 & W2 & W3 & W4).
  { intros t Ht. split; [exact (RW2 t Ht)|]. intros c Hc _. eapply visible_of; [apply RV; exact Ht|exact Hc]. }
  { exact R1. }
  { exact R2. }
  fold ws in W1, W2, W3, W4.
  assert (WW : rel_words ws) by (split; [exact W1|intros w Hw; apply (W2 w Hw)]).
  assert (E5 : NoDup (map fst a) /\ lower_keys a /\ In (u "rel", Some (join [32] ws)) a /\ (forall k v, In (k, v) a -> (k = u "rel" /\ v = Some (join [32] ws)) \/ (In (k, v) a4 /\ k <> u "rel"))
     /\ (forall k v, k <> u "rel" -> In (k, v) a <-> In (k, v) a4)).
  { assert (Eb : a = a4 /\ In (u "rel", Some (join [32] ws)) a4 \/ a = dict_set (u "rel") (Some (join [32] ws)) a4).
    { destruct (merge_rel_simple (force_link_rel p) name a4 L4 Hn) as [[E (v & Hv1 & Ev)]|E]; rewrite E in Ea; [left|right; exact Ea]. split; [exact Ea|]. apply assoc_In. rewrite Hv1, Ev. reflexivity. }
    destruct Eb as [[-> Hin]|Eb].
    - split; [exact ND4|]. split; [exact L4|]. split; [exact Hin|]. split; [|reflexivity]. intros k v Q. destruct (str_eqb_spec k (u "rel")) as [->|Nk]; [left|right; auto].
      split; [reflexivity|]. eapply NoDup_key_inj; eassumption.
    - rewrite Eb. split; [apply dict_set_NoDup; exact ND4|]. split; [|split; [|split]].
      + intros k Q. apply dict_set_keys in Q. destruct Q as [->|Q]; [reflexivity|apply L4; exact Q].
      + unfold dict_set. destruct (dict_has (u "rel") a4) eqn:Eh.
        * apply dict_has_In in Eh. apply in_map_iff in Eh. destruct Eh as ([k v] & Ek & Hk). cbn [fst] in Ek. subst k. apply in_map_iff. exists (u "rel", v). split; [|exact Hk].
          cbn [fst]. rewrite str_eqb_refl. reflexivity.
        * apply in_or_app. right. left. reflexivity.
      + intros k v Q. apply dict_set_In in Q. destruct Q as [Q|[Q N]]; [left; split; congruence|right; auto].
      + intros k v Nk. split; intros Q.
        * apply dict_set_In in Q. destruct Q as [Q|[Q _]]; [congruence|exact Q].
        * unfold dict_set. destruct (dict_has (u "rel") a4); [|apply in_or_app; left; exact Q]. apply in_map_iff. exists (k, v). split; [|exact Q]. cbn [fst].
          destruct (str_eqb_spec (u "rel") k); [congruence|reflexivity]. }
  destruct E5 as (ND5 & L5 & Hrel & C5 & O5). split; [exact ND5|]. split; [exact L5|]. split; [|split; [|split; [|split]]].
  - intros Es k s Q. apply C5 in Q. destruct Q as [[_ Q]|[Q _]]; [|eapply V4; eassumption]. assert (s = join [32] ws) as -> by congruence. apply join_visible.
    intros w Hw c Hc. destruct (W2 w Hw) as [_ G]. exact (G c Hc Es).
  - intros k Q. apply in_map_iff in Q. destruct Q as ([k' v] & <- & Q). apply C5 in Q. destruct Q as [[-> _]|[Q _]].
    + split; [discriminate|]. apply rel_allowed; [exact Hn|rewrite Ef; discriminate].
    + apply A4. apply in_map_iff. exists (k', v). auto.
  - intros k v Q. apply C5 in Q. destruct Q as [[-> _]|[Q N]]; [left; apply leave4; right; left; reflexivity|].
    apply U4; [exact L5|exact ND5| |exact Q]. intros g v1 Hg. rewrite O5 by (destruct Hg as [<-|[<-|[]]]; discriminate). apply G4. exact Hg.
  - intros _ v Q. apply SS. apply C5 in Q. destruct Q as [[Q _]|[Q _]]; [discriminate Q|exact Q].
  - intros _. eapply clean_rel; try eassumption.
Qed.
End Idem.
