(* PROOFS for C66, part 4: start tags, the rules of "in body" and foreign content *)
From Coq Require Import List Arith Bool String Lia.
From Verif Require Import Str StrFacts SerTreeProofs.
From Verif Require Import AaaModel GuardModel CloseModel CloseSpec CloseProofs1 CloseProofs2 CloseProofs3.
Import ListNotations.
Open Scope string_scope. Open Scope list_scope. Open Scope nat_scope.

Lemma in_sub : forall n l, in_strs n l = true -> forall m, sub l m = true -> in_strs n m = true. Proof. eauto using sub_in. Qed.
Lemma in_apart : forall n l, in_strs n l = true -> forall m, apart l m = true -> in_strs n m = false. Proof. eauto using apart_in. Qed.
Lemma reaches_mono : forall p b b' l, Forall (fun e => b e = true -> b' e = true) l -> reaches p b' l = true -> reaches p b l = true.
Proof.
  intros p b b' l F. induction F as [|e t H F IH]; [discriminate|]. cbn [reaches]. destruct (p e); [reflexivity|]. cbn [orb]. destruct (b e); [rewrite (H eq_refl); discriminate|]. destruct (b' e); [discriminate|exact IH].
Qed.
Lemma reaches_existsb : forall p b l, reaches p b l = true -> existsb p l = true.
Proof. intros p b. induction l as [|e t IH]; [discriminate|]. cbn [reaches existsb]. destruct (p e); [reflexivity|]. cbn [orb]. destruct (b e); [discriminate|exact IH]. Qed.
Lemma reaches_ext : forall p p' b l, Forall (fun e => p e = p' e) l -> reaches p b l = reaches p' b l.
Proof. intros p p' b l F. induction F as [|e t H F IH]; [reflexivity|]. cbn [reaches]. rewrite H, IH. reflexivity. Qed.
Lemma existsb_same : forall (p p' : el -> bool) l, Forall (fun e => p e = p' e) l -> existsb p l = existsb p' l.
Proof. intros p p' l F. induction F as [|e t H F IH]; [reflexivity|]. cbn [existsb]. rewrite H, IH. reflexivity. Qed.

Lemma exempt_same : forall e, html e = true -> name_in (map u ["address"; "div"; "p"]) e = is "address" e || is "div" e || is "p" e.
Proof.
  intros e H. unfold name_in, is. rewrite H. cbn [andb]. change (map u ["address"; "div"; "p"]) with ([u "address"] ++ [u "div"] ++ [u "p"]). rewrite !in_strs_app, !in_one. apply orb_assoc.
Qed.
Definition li_stop (e : el) : bool := special e && negb (name_in (map u ["address"; "div"; "p"]) e).
Lemma li_find : forall l, Forall okel l -> reaches (is "li") stops_item l || negb (reaches (is "li") (fun e => html e && stops_item e) l) = true ->
  reaches (is "dialog") (fun e => is "li" e || stops_item e) l = false -> find_p (named (u "li")) li_stop l = find_p (is "li") stops_item l.
Proof.
  intros l O K D.
  assert (Forall (fun e => named (u "li") e = is "li" e) l) as N by (eapply Forall_impl; [|exact O]; intros e He; apply named_is; [exact He|vm_compute; reflexivity]).
  rewrite (agree_all (named (u "li")) li_stop (is "li") li_stop) by (eapply Forall_impl; [|exact N]; intros e He; split; [exact He|reflexivity]).
  destruct (find_p (is "li") stops_item l) as [t|] eqn:E.
  - destruct (find_parts _ _ _ _ E) as [a [e [L [P F]]]]. subst l. rewrite find_skip; [cbn [find_p]; rewrite P; reflexivity|].
    apply Forall_app in O. destruct O as [O _]. clear K N E. revert O D. induction F as [|x a [Px Sx] F IH]; intros O D; [constructor|]. inversion O as [|y z Ox O']; subst.
    cbn [app reaches] in D. apply orb_false_iff in D. destruct D as [Dx D]. rewrite Px, Sx in D. cbn [orb negb andb] in D. constructor; [|exact (IH O' D)]. split; [exact Px|].
    unfold li_stop. destruct (html x) eqn:H; [|unfold special; rewrite H; reflexivity]. rewrite (special_same x Ox H Dx), (exempt_same x H). exact Sx.
  - apply find_none in E. rewrite E in K. cbn [orb] in K. apply negb_true_iff in K. apply find_none.
    destruct (reaches (is "li") li_stop l) eqn:R; [|reflexivity]. rewrite <- K. symmetry. refine (reaches_mono _ _ li_stop l _ R).
    eapply Forall_impl; [|exact O]. intros x Ox Hx. apply andb_true_iff in Hx. destruct Hx as [H Sx]. unfold stops_item in Sx. apply andb_true_iff in Sx. destruct Sx as [Sx Ex].
    unfold li_stop. rewrite (special_more x Ox H Sx), (exempt_same x H). exact Ex.
Qed.
Lemma dl_special : forall e, dl_stop e = true -> stops_item e = true.
Proof.
  intros e H. unfold dl_stop in H. apply andb_true_iff in H. destruct H as [H S]. rewrite (ends_html _ _ H) in S. unfold stops_item. rewrite (special_html e H), (in_sub _ _ S std_specials ltac:(vm_compute; reflexivity)). cbn [andb].
  rewrite <- (exempt_same e H). unfold name_in. rewrite (in_apart _ _ S (map u ["address"; "div"; "p"]) ltac:(vm_compute; reflexivity)). reflexivity.
Qed.
Lemma def_find : forall l, reaches definition stops_item l || negb (reaches definition dl_stop l) = true -> find_p definition dl_stop l = find_p definition stops_item l.
Proof.
  intros l K. destruct (find_p definition stops_item l) as [t|] eqn:E.
  - refine (find_weaken _ _ _ _ _ _ E). apply Forall_forall. intros e _ H _. exact (dl_special e H).
  - apply find_none in E. rewrite E in K. apply negb_true_iff in K. apply find_none. exact K.
Qed.
Lemma def_code : forall l, Forall okel l -> noitem l ->
  or_same (close_until (u "dt") definition_scope (or_same (close_until (u "dd") definition_scope l) l)) (or_same (close_until (u "dd") definition_scope l) l) = or_same (find_p definition dl_stop l) l.
Proof.
  intros l O N.
  assert (forall n m, (n = "dd" \/ n = "dt") -> Forall okel m -> close_until (u n) definition_scope m = find_p (is n) dl_stop m) as C.
  { intros n m Hn Om. rewrite close_until_p. apply agree_all. eapply Forall_impl; [|exact Om]. intros e Oe. split; [apply named_is; [exact Oe|destruct Hn; subst n; vm_compute; reflexivity]|].
    unfold dl_stop. destruct (html e) eqn:H; [|reflexivity]. cbn [andb]. apply scope_html; [exact H|vm_compute; reflexivity]. }
  rewrite (C "dd" l (or_introl eq_refl) O).
  assert (forall n m, (n = "dd" \/ n = "dt") -> reaches definition dl_stop m = false -> find_p (is n) dl_stop m = None) as Z.
  { intros n m Hn. induction m as [|e t IH]; intros R; [reflexivity|]. cbn [reaches find_p] in *. apply orb_false_iff in R. destruct R as [D R]. unfold definition in D. apply orb_false_iff in D. destruct D as [D1 D2].
    assert (is n e = false) as -> by (destruct Hn; subst n; assumption). destruct (dl_stop e); [reflexivity|]. exact (IH R). }
  destruct (find_p definition dl_stop l) as [t|] eqn:E.
  - destruct (find_parts _ _ _ _ E) as [a [e [L [P F]]]]. subst l. apply Forall_app in O. destruct O as [Oa O]. inversion O as [|y z Oe Ot]; subst.
    assert (noitem (e :: t)) as [Ne _] by (eapply noitem_suffix; [exists a; reflexivity|exact N]). specialize (Ne P). pose proof (Z "dd" t (or_introl eq_refl) Ne) as Zd. pose proof (Z "dt" t (or_intror eq_refl) Ne) as Zt.
    assert (Forall (fun x => is "dd" x = false /\ dl_stop x = false) a /\ Forall (fun x => is "dt" x = false /\ dl_stop x = false) a) as [Fd Ft].
    { split; (eapply Forall_impl; [|exact F]); intros x [D S]; unfold definition in D; apply orb_false_iff in D; tauto. }
    rewrite (find_skip _ _ a (e :: t) Fd). cbn [find_p]. unfold definition in P. destruct (is "dd" e) eqn:De.
    + cbn [or_same]. rewrite (C "dt" t (or_intror eq_refl) Ot), Zt. reflexivity.
    + cbn [orb] in P. assert (dl_stop e = false) as Se.
      { unfold dl_stop. rewrite (is_html _ _ P), (ends_html _ _ (is_html _ _ P)), (is_name _ _ P). vm_compute. reflexivity. }
      rewrite Se, Zd. cbn [or_same]. rewrite (C "dt" _ (or_intror eq_refl)) by (apply Forall_app; split; assumption). rewrite (find_skip _ _ a (e :: t) Ft). cbn [find_p]. rewrite P. reflexivity.
  - apply find_none in E. rewrite (Z "dd" l (or_introl eq_refl) E). cbn [or_same]. rewrite (C "dt" l (or_intror eq_refl) O), (Z "dt" l (or_intror eq_refl) E). reflexivity.
Qed.
Lemma def_block : forall e, definition e = true -> block e = true /\ is "p" e = false.
Proof.
  intros e H. unfold definition in H. apply orb_true_iff in H. unfold block, name_in, is.
  destruct H as [H|H]; rewrite (is_html _ _ H), (is_name _ _ H); split; vm_compute; reflexivity.
Qed.
Lemma li_block : forall e, is "li" e = true -> block e = true /\ is "p" e = false.
Proof. intros e H. unfold block, name_in, is. rewrite (is_html _ _ H), (is_name _ _ H). split; vm_compute; reflexivity. Qed.
Lemma not_block_names : forall e X, html e = true -> block e = false -> sub X (p_closing ++ [u "body"]) = true -> in_strs (en e) X = false.
Proof. intros e X H B S. unfold block, name_in, named in B. rewrite H in B. cbn [andb] in B. rewrite <- in_one, <- in_strs_app in B. exact (not_in_sub _ _ _ S B). Qed.

(* ---- button and ruby, then the repair: what the code does by the rules of "in body" ---- *)
Definition before_repair (name : str) (l : stack) : stack :=
  let l := if str_eqb name (u "button") && open_anywhere (u "button") l then let l := implied None l in or_same (close_until (u "button") [u "template"] l) l else l in
  let ruby := open_anywhere (u "ruby") l in
  if ruby && in_strs name (map u ["rb"; "rtc"]) then match l with e :: _ => if name_in (map u ["rb"; "rp"; "rt"; "rtc"]) e then implied None l else l | [] => l end
  else if ruby && in_strs name (map u ["rp"; "rt"]) then implied (Some (u "rtc")) l else l.
Lemma before_repair_none : forall name l, in_strs name (map u ["button"; "rb"; "rtc"; "rp"; "rt"]) = false -> before_repair name l = l.
Proof.
  intros name l H. change (map u ["button"; "rb"; "rtc"; "rp"; "rt"]) with ([u "button"] ++ map u ["rb"; "rtc"] ++ map u ["rp"; "rt"]) in H. rewrite !in_strs_app, in_one in H.
  apply orb_false_iff in H. destruct H as [H1 H]. apply orb_false_iff in H. destruct H as [H2 H3]. unfold before_repair. rewrite H1, H2, H3, !andb_false_r. reflexivity.
Qed.
Lemma never_same : forall l, Forall (fun e => html e = true -> match @None str with Some n => named n e | None => false end = never e) l.
Proof. intros l. apply Forall_forall. intros e _ _. reflexivity. Qed.
Lemma never_until : forall p l, (forall e, p e = true -> in_strs (en e) implied_names = false) -> pop_until p (generate never l) = pop_until p l.
Proof. intros p l H. apply generate_until. intros e P. unfold one_of. change (map u _) with implied_names. rewrite (H e P). rewrite andb_false_r. reflexivity. Qed.

Lemma button_case : forall l, inv l -> sound_top l = true -> negb (existsb (mem_name ["button"]) l) || in_scope (is "button") [] l = true ->
  (if open_anywhere (u "button") l then or_same (close_until (u "button") [u "template"] (implied None l)) (implied None l) else l)
  = if in_scope (is "button") [] l then pop_until (is "button") (generate never l) else l.
Proof.
  intros l I S K. unfold open_anywhere.
  assert (existsb (named (u "button")) l = existsb (mem_name ["button"]) l) as E.
  { apply existsb_same. apply Forall_forall. intros e _. unfold named, mem_name, one_of. change (map u ["button"]) with [u "button"]. rewrite in_one. reflexivity. }
  rewrite E. destruct (existsb (mem_name ["button"]) l) eqn:X.
  - cbn [negb orb] in K. rewrite K. unfold in_scope in K.
    rewrite (implied_generate None never l (i_chain l I) S (never_same l)).
    assert (find_p (is "button") (ends_scope []) l = Some (pop_until (is "button") l)) as F by (rewrite find_std, K; reflexivity).
    rewrite close_until_p, find_generate.
    + rewrite (agree (is "button") (ends_scope []) (named (u "button")) (ends_scope []) l) in F.
      * rewrite (find_weaken _ _ (fun e => html e && name_in [u "template"] e) l (pop_until (is "button") l)) with (2 := F).
        { cbn [or_same]. symmetry. apply never_until. intros e P. rewrite (is_name _ _ P). vm_compute. reflexivity. }
        apply Forall_forall. intros e _ H _. apply andb_true_iff in H. destruct H as [H T]. rewrite (ends_html _ _ H). refine (sub_in _ _ _ _ T). vm_compute. reflexivity.
      * pose proof (upper_sound l (i_chain l I) (or_intror S)) as U. eapply Forall_impl; [|exact U]. intros e [H|H]; unfold agrees.
        { unfold is, named. rewrite H. repeat split. intros P. rewrite (point_foreign e P) in H. discriminate. }
        { rewrite (point_not_named (u "button") e) by (try exact H; vm_compute; reflexivity). unfold is. rewrite (ends_foreign _ _ (point_foreign e H)), (point_foreign e H), H. repeat split. }
    + intros e H J [P|P]; exfalso.
      * unfold named in P. apply str_eqb_eq in P. rewrite P in J. vm_compute in J. discriminate.
      * apply andb_true_iff in P. destruct P as [_ P]. unfold name_in in P. rewrite (in_apart _ _ J [u "template"] ltac:(vm_compute; reflexivity)) in P. discriminate.
  - destruct (in_scope (is "button") [] l) eqn:R; [|reflexivity]. exfalso. unfold in_scope in R. apply reaches_existsb in R. apply existsb_exists in R. destruct R as [e [Ie Pe]].
    assert (existsb (mem_name ["button"]) l = true) as Y by (apply existsb_exists; exists e; split; [exact Ie|]; unfold mem_name, one_of; rewrite (is_name _ _ Pe); vm_compute; reflexivity). congruence.
Qed.
Lemma ruby_open : forall l, Forall okel l -> negb (existsb (mem_name ["ruby"]) l) || in_scope (is "ruby") [] l = true -> open_anywhere (u "ruby") l = in_scope (is "ruby") [] l.
Proof.
  intros l O K. unfold open_anywhere.
  assert (existsb (named (u "ruby")) l = existsb (mem_name ["ruby"]) l) as E.
  { apply existsb_same. apply Forall_forall. intros e _. unfold named, mem_name, one_of. change (map u ["ruby"]) with [u "ruby"]. rewrite in_one. reflexivity. }
  rewrite E. destruct (existsb (mem_name ["ruby"]) l) eqn:X; [symmetry; exact K|]. symmetry. destruct (in_scope (is "ruby") [] l) eqn:R; [|reflexivity]. exfalso.
  unfold in_scope in R. apply reaches_existsb in R. apply existsb_exists in R. destruct R as [e [Ie Pe]].
  assert (existsb (mem_name ["ruby"]) l = true) as Y by (apply existsb_exists; exists e; split; [exact Ie|]; unfold mem_name, one_of; rewrite (is_name _ _ Pe); vm_compute; reflexivity). congruence.
Qed.

Ltac names := vm_compute; reflexivity.
Lemma code_body_start : forall quirks name l, inv l -> sound_top l = true -> ordinary name = true -> ok_body_start name l = true ->
  repair quirks name (before_repair name l) = before_insertion name l.
Proof.
  intros quirks name l I S Or K. unfold before_insertion.
  assert (forall X, in_strs name X = true -> apart X (map u ["button"; "rb"; "rtc"; "rp"; "rt"]) = true -> before_repair name l = l) as NB.
  { intros X HX A. apply before_repair_none. exact (apart_in _ _ _ A HX). }
  assert (in_strs name [u "table"] = false) as NT by (apply (not_in_sub other_rules); [names|unfold ordinary in Or; apply negb_true_iff in Or; exact Or]).
  assert (forall m, repair quirks name m =
    let l := if in_strs name p_closing then pclose m else m in
    if in_strs name [u "li"] then or_same (close_li l) l
    else if in_strs name (map u ["dd"; "dt"]) then let l := or_same (close_until (u "dd") definition_scope l) l in or_same (close_until (u "dt") definition_scope l) l
    else if in_strs name headings then match pop_foreign l with e :: t => if name_in headings e then t else e :: t | [] => [] end else l) as RE.
  { intros m. unfold repair, pclose. rewrite !in_one in *. rewrite NT. cbn [andb negb]. rewrite andb_true_r. destruct (in_strs name p_closing); reflexivity. }
  unfold one_of in *. destruct (in_strs name (map u closes_p)) eqn:C1.
  { rewrite (NB _ C1) by names. rewrite RE. cbv zeta. rewrite (in_sub _ _ C1 p_closing ltac:(vm_compute; reflexivity)), (in_apart _ _ C1 [u "li"] ltac:(vm_compute; reflexivity)), (in_apart _ _ C1 (map u ["dd"; "dt"]) ltac:(vm_compute; reflexivity)), (in_apart _ _ C1 headings ltac:(vm_compute; reflexivity)). apply pclose_std; assumption. }
  destruct (in_strs name (map u ["h1"; "h2"; "h3"; "h4"; "h5"; "h6"])) eqn:C2.
  { rewrite (NB _ C2) by names. rewrite RE. cbv zeta. rewrite (in_sub _ _ C2 p_closing ltac:(vm_compute; reflexivity)), (in_apart _ _ C2 [u "li"] ltac:(vm_compute; reflexivity)), (in_apart _ _ C2 (map u ["dd"; "dt"]) ltac:(vm_compute; reflexivity)), (in_sub _ _ C2 headings ltac:(vm_compute; reflexivity)).
    rewrite (pclose_std l I S). assert (inv (close_p l)) as I' by (rewrite close_p_cut; apply inv_cut; [exact I|reflexivity|reflexivity]).
    rewrite pop_leave by (apply i_bottom; exact I'). rewrite leave_sound by (rewrite close_p_cut; apply sound_cut; try assumption; try reflexivity; apply is_html).
    pose proof (i_el _ I') as O. destruct (close_p l) as [|e t]; [reflexivity|]. inversion O; subst. rewrite (headings_is e) by assumption. reflexivity. }
  destruct (in_strs name (map u ["li"])) eqn:C3.
  { rewrite (NB _ C3) by names. rewrite RE. cbv zeta. rewrite (in_sub _ _ C3 p_closing ltac:(vm_compute; reflexivity)). change [u "li"] with (map u ["li"]). rewrite C3. rewrite (pclose_std l I S).
    unfold ok_body_start, one_of in K. rewrite C3 in K. apply andb_true_iff in K. destruct K as [K1 K2]. apply negb_true_iff in K2.
    rewrite close_item_cut by (intros; first [eapply is_html; eassumption | unfold is; match goal with H : is "li" _ = true, J : en _ = en _ |- _ => rewrite J, (is_name _ _ H) end; match goal with H : html _ = true |- _ => rewrite H end; vm_compute; reflexivity]).
    rewrite close_li_p. fold li_stop.
    assert (Forall okel (close_p l)) as O by (rewrite close_p_cut; apply i_el; apply inv_cut; [exact I|reflexivity|reflexivity]).
    rewrite (agree_all (named (u "li")) li_stop (is "li") li_stop (close_p l)) by (eapply Forall_impl; [|exact O]; intros e He; split; [apply named_is; [exact He|names]|reflexivity]).
    apply item_p; try assumption.
    - exact li_block.
    - intros e Oe H B Sc. unfold li_stop. rewrite (proj1 (plain e Oe H B Sc)). reflexivity.
    - intros e P. unfold li_stop. rewrite (exempt_same e (is_html _ _ P)), P, orb_true_r. apply andb_false_r.
    - rewrite <- (li_find l (i_el l I) K1 K2). apply agree_all. eapply Forall_impl; [|exact (i_el l I)]. intros e He. split; [symmetry; apply named_is; [exact He|names]|reflexivity]. }
  destruct (in_strs name (map u ["dd"; "dt"])) eqn:C4.
  { rewrite (NB _ C4) by names. rewrite RE. cbv zeta. rewrite (in_sub _ _ C4 p_closing ltac:(vm_compute; reflexivity)). change [u "li"] with (map u ["li"]). rewrite C3, ?C4. rewrite (pclose_std l I S).
    unfold ok_body_start, one_of in K. rewrite C3, C4 in K.
    assert (inv (close_p l)) as I' by (rewrite close_p_cut; apply inv_cut; [exact I|reflexivity|reflexivity]).
    rewrite (def_code (close_p l) (i_el _ I') (i_item _ I')).
    rewrite close_item_cut by (intros; unfold definition, is in *;
      first [ match goal with H : (_ && _ || _ && _) = true |- html ?e = true => destruct (html e); [reflexivity|exact H] end
            | match goal with J : en _ = en _, H : html ?x = true |- _ => rewrite J, H; match goal with D : _ = true |- (true && str_eqb (en ?e) _ || _) = true => destruct (html e); [exact D|discriminate] end end]).
    apply item_p; try assumption.
    - exact def_block.
    - intros e Oe H B Sc. unfold dl_stop. rewrite H, (ends_html _ _ H). cbn [andb]. change (scope_names ["dl"]) with ([u "dl"] ++ scope_names []). rewrite in_strs_app. rewrite (not_block_names e [u "dl"] H B ltac:(names)). cbn [orb].
      refine (not_in_sub (scope_names ["button"]) _ _ _ _); [names|]. rewrite <- (ends_html _ _ H). exact Sc.
    - intros e P. unfold dl_stop. rewrite (ends_html _ _ (is_html _ _ P)), (is_name _ _ P), (is_html _ _ P). names.
    - exact (def_find l K). }
  assert (in_strs name p_closing = false) as NP.
  { destruct (in_strs name p_closing) eqn:P; [|reflexivity]. pose proof (in_sub _ _ P (map u closes_p ++ map u ["h1"; "h2"; "h3"; "h4"; "h5"; "h6"] ++ map u ["li"] ++ map u ["dd"; "dt"] ++ other_rules) ltac:(vm_compute; reflexivity)) as Q.
    rewrite !in_strs_app, C1, C2, C3, C4 in Q. unfold ordinary in Or. cbn [orb] in Q. rewrite Q in Or. discriminate. }
  assert (forall m, repair quirks name m = m) as R0.
  { intros m. rewrite RE. cbv zeta. rewrite NP. change [u "li"] with (map u ["li"]). rewrite C3, ?C4. change headings with (map u ["h1"; "h2"; "h3"; "h4"; "h5"; "h6"]). rewrite C2. reflexivity. }
  rewrite R0. unfold ok_body_start, one_of in K. rewrite C3, C4 in K. unfold before_repair.
  destruct (in_strs name (map u ["button"])) eqn:C5.
  { rewrite (in_apart _ _ C5 (map u ["rb"; "rtc"]) ltac:(vm_compute; reflexivity)), (in_apart _ _ C5 (map u ["rp"; "rt"]) ltac:(vm_compute; reflexivity)), !andb_false_r. change (map u ["button"]) with [u "button"] in C5. rewrite in_one in C5. rewrite C5. cbn [andb]. cbv zeta.
    rewrite <- (button_case l I S K). destruct (open_anywhere (u "button") l); reflexivity. }
  change (map u ["button"]) with [u "button"] in C5. rewrite in_one in C5. rewrite C5. cbn [andb]. cbv zeta.
  assert (Forall (fun e => html e = true -> match Some (u "rtc") with Some n => named n e | None => false end = is "rtc" e) l) as RT by (apply Forall_forall; intros e _ He; unfold named, is; rewrite He; reflexivity).
  destruct (in_strs name (map u ["rb"; "rtc"])) eqn:C6.
  { rewrite andb_true_r. rewrite (in_apart _ _ C6 (map u ["rp"; "rt"]) ltac:(vm_compute; reflexivity)), andb_false_r.
    assert (negb (existsb (mem_name ["ruby"]) l) || in_scope (is "ruby") [] l = true) as K' by (destruct (existsb (mem_name ["ruby"]) l); [cbn [negb orb] in *; apply andb_true_iff in K; exact (proj1 K)|reflexivity]).
    rewrite (ruby_open l (i_el l I) K'). destruct (in_scope (is "ruby") [] l) eqn:R; [|reflexivity].
    assert (existsb (mem_name ["ruby"]) l = true) as X.
    { unfold in_scope in R. apply reaches_existsb in R. apply existsb_exists in R. destruct R as [e [Ie Pe]]. apply existsb_exists. exists e. split; [exact Ie|]. unfold mem_name, one_of. rewrite (is_name _ _ Pe). names. }
    rewrite X in K. cbn [negb orb andb] in K. rewrite (implied_generate None never l (i_chain l I) S (never_same l)).
    destruct l as [|e t]; [reflexivity|]. destruct (name_in (map u ["rb"; "rp"; "rt"; "rtc"]) e) eqn:Q; [reflexivity|]. cbn [generate].
    replace (one_of ["dd"; "dt"; "li"; "optgroup"; "option"; "p"; "rb"; "rp"; "rt"; "rtc"] (en e)) with false; [rewrite andb_false_r; reflexivity|]. symmetry. unfold one_of.
    refine (not_in_sub (map u ["dd"; "dt"; "li"; "optgroup"; "option"; "p"] ++ map u ["rb"; "rp"; "rt"; "rtc"]) _ _ _ _); [names|]. rewrite in_strs_app. unfold name_in in Q. rewrite Q. apply negb_true_iff in K. unfold mem_name, one_of in K. rewrite K. reflexivity. }
  rewrite andb_false_r.
  destruct (in_strs name (map u ["rp"; "rt"])) eqn:C7; [|rewrite andb_false_r; reflexivity].
  rewrite andb_true_r. rewrite (ruby_open l (i_el l I) K). destruct (in_scope (is "ruby") [] l); [|reflexivity]. apply implied_generate; [exact (i_chain l I)|exact S|exact RT].
Qed.
