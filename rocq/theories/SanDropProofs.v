(* C22 (foreign content), C23 (comments, doctypes, dropped content), C24 (text). *)
From Coq Require Import Lia.
From Verif Require Import Str StrFacts SerializerModel UrlModel CssModel SanModel SanSpec SanFacts SanFuel SanProofs SanAttrProofs SanTreeProofs.
Open Scope N_scope.

Section Drop.
Variable py : urllib.
Variable p : policy.

Definition not_comment (n : node) : Prop := match n with Cm _ _ | Pi _ _ => False | _ => True end.
Definition not_doctype (n : node) : Prop := match n with Dt _ _ => False | _ => True end.
Definition anything (n : node) : Prop := True.
Lemma anything_label : label_pred anything.
Proof. split; intros; exact I. Qed.

Lemma top_le n : top_ok p n -> is_tx n \/ (mark (info_of n) <= 1)%nat.
Proof. intros [[H|H] _]; [left; exact H|right]. pose proof (bound_le p). lia. Qed.

Lemma no_comments n out fs : pol_drop_comments p = true -> apply_policy_to_root py p n = Ok out fs -> All not_comment out.
Proof.
  intros D H. eapply (apply_inv py p anything not_comment); [apply anything_label| | | |exact H|intros x _; exact I].
  - split; intros; try exact I; try assumption. destruct n0; assumption.
  - intros; exact I.
  - intros m nf m' gs T _ _ E. pose proof (run_shape py p _ _ _ _ _ _ E) as Sh. destruct m as [i name ns attrs ch tc | i d | i d | i d | i d | i name ch];
      try (destruct m'; cbn in Sh; try discriminate Sh; exact I); exfalso; apply top_le in T; destruct T as [[]|T]; cbn [info_of] in *.
    + rewrite (run_comment py p _ nf (Cm i d) i d) in E by auto. rewrite D in E. destruct (disallowed_tag_handling p); discriminate E.
    + rewrite (run_comment py p _ nf (Pi i d) i d) in E by auto. rewrite D in E. destruct (disallowed_tag_handling p); discriminate E.
Qed.
Lemma no_doctypes n out fs : pol_drop_doctype p = true -> apply_policy_to_root py p n = Ok out fs -> All not_doctype out.
Proof.
  intros D H. eapply (apply_inv py p anything not_doctype); [apply anything_label| | | |exact H|intros x _; exact I].
  - split; intros; try exact I; try assumption. destruct n0; assumption.
  - intros; exact I.
  - intros m nf m' gs T _ _ E. pose proof (run_shape py p _ _ _ _ _ _ E) as Sh. destruct m as [i name ns attrs ch tc | i d | i d | i d | i d | i name ch];
      try (destruct m'; cbn in Sh; try discriminate Sh; exact I). exfalso; apply top_le in T; destruct T as [[]|T]; cbn [info_of] in *.
    rewrite run_doctype in E by auto. rewrite D in E. discriminate E.
Qed.

(* ---- foreign content ---- *)
Lemma foreign_here_spec i name ns attrs ch tc : foreign_here (El i name ns attrs ch tc) = true <-> foreign name ns.
Proof.
  cbn [foreign_here]. rewrite orb_true_iff, negb_true_iff. unfold foreign. rewrite in_strs_In. cbn [In].
  assert (E : html_or_none ns = false <-> exists s, ns = Some s /\ s <> u "html").
  { unfold html_or_none. destruct ns as [s|]; [|split; [discriminate|intros (s & Q & _); discriminate Q]].
    destruct (str_eqb_spec s (u "html")) as [Q|Q]; split; intros H; try discriminate H; eauto.
    destruct H as (s' & Q' & N). injection Q' as <-. contradiction. }
  rewrite E. intuition; subst; intuition; try (symmetry; assumption).
Qed.
Definition not_foreign (n : node) : Prop := match n with El _ name ns _ _ _ => ~ foreign name ns | _ => True end.
Lemma no_foreign_drop n out fs : disallowed_tag_handling p = TDrop -> apply_policy_to_root py p n = Ok out fs -> All not_foreign out.
Proof.
  intros D H. eapply (apply_inv py p anything not_foreign); [apply anything_label| | | |exact H|intros x _; exact I].
  - split; intros; try exact I; try assumption. destruct n0; assumption.
  - intros; exact I.
  - intros m nf m' gs T _ F E. pose proof (run_shape py p _ _ _ _ _ _ E) as Sh. destruct m as [i name ns attrs ch tc | i d | i d | i d | i d | i name ch];
      try (destruct m'; cbn in Sh; try discriminate Sh; exact I).
    destruct m' as [i' name' ns' attrs' ch' tc' | | | | | ]; cbn in Sh; try discriminate Sh. destruct Sh as (-> & -> & -> & -> & ->).
    cbn [not_foreign]. intros Q. destruct T as [[[]|T] _]. unfold bound in T. rewrite D in T. cbn [info_of] in *. rewrite run_El in E by lia.
    rewrite F in E by (apply foreign_here_spec; exact Q). replace (mark i') with 0%nat in E by lia. cbn [Nat.eqb andb] in E.
    match type of E with context [if ?b then GoneAll else Gone] => destruct b end; discriminate E.
Qed.

(* inside foreign content no element survives *)
Definition not_el (n : node) : Prop := match n with El _ _ _ _ _ _ => False | _ => True end.
Lemma not_el_label : label_pred not_el.
Proof. split; intros; try exact I; try assumption. destruct n; assumption. Qed.
Lemma mark0_insert t n n' : is_tx t -> All mark0 n -> insert_html t n = Some n' -> All mark0 n'.
Proof.
  intros Ht H E. destruct n as [i0 name ns attrs ch tc | | | | | ]; try discriminate E. cbn [insert_html] in E. destruct (str_eqb _ _); [|discriminate E].
  destruct (insert_first (insert_into_body t) ch) as [ch'|] eqn:Ei; [|discriminate E]. injection E as <-.
  apply All_El_inv in H. destruct H as (H1 & H2 & H3). apply All_El; auto.
  eapply insert_first_Forall; [|exact Ei|exact H2]. clear - Ht. intros n n' H E.
  destruct n as [i0 name ns attrs ch tc | | | | | ]; try discriminate E. cbn [insert_into_body] in E. destruct (str_eqb _ _); [|discriminate E]. injection E as <-.
  apply All_El_inv in H. destruct H as (H1 & H2 & H3). apply All_El; auto.
  rewrite <- (firstn_skipn (icount i0) ch) in H2. apply Forall_app in H2. destruct H2 as [A B]. apply Forall_app. split; [exact A|]. constructor; [|exact B].
  destruct t; try contradiction. apply All_leaf; [exact I|]. left. exact I.
Qed.
Lemma run_foreign_el i name ns attrs ch tc o fs : mark i = 0%nat ->
  run py p (mark i) (skipn (mark i) (pipeline p)) true (El i name ns attrs ch tc) = Ok o fs -> o = Gone \/ o = GoneAll.
Proof.
  intros Hm E. rewrite run_El in E by lia. rewrite Hm in E. cbn [Nat.eqb andb] in E.
  match type of E with context [if ?b then GoneAll else Gone] => destruct b end; injection E as <- _; auto.
Qed.
Lemma walks_foreign doc ctx done pending out fs : Walks py p doc ctx done pending out fs -> ctx = true ->
  Forall (All mark0) pending -> Forall (All not_el) done -> Forall (All not_el) out.
Proof.
  intros H. induction H using Walks_ind2 with (P0 := fun ctx tc tc' fs _ => True); try exact I.
  all: intros Hc Hp Hd; repeat match goal with H : Forall _ (_ :: _) |- _ => apply Forall_cons_iff in H; destruct H end; subst ctx; cbn [orb] in *.
  - assumption.
  - auto.
  - assumption.
  - pose proof e as e'. apply run_repl in e; [|apply mark0_top; assumption]. destruct e as (i & name & ns & attrs & ch & tc & a & b & -> & _).
    exfalso. match goal with H : All mark0 (El _ _ _ _ _ _) |- _ => apply All_self in H; destruct H as [[]|Hm] end. cbn [info_of] in *.
    apply run_foreign_el in e'; [|exact Hm]. destruct e'; discriminate.
  - pose proof (run_shape py p _ _ _ _ _ _ e) as (_ & ti & td & ->).
    apply IHWalks; auto. eapply insert_first_Forall; [|exact e0|eassumption]. intros a b Ha Hb. eapply All_insert_html; [apply not_el_label| |]; eassumption.
  - pose proof (run_shape py p _ _ _ _ _ _ e) as (_ & ti & td & ->).
    apply IHWalks; auto. eapply insert_first_Forall; [|exact e1|eassumption]. intros a b Ha Hb. eapply mark0_insert; [| |exact Hb]; [exact I|assumption].
  - pose proof (run_shape py p _ _ _ _ _ _ e) as (_ & ti & td & ->).
    apply IHWalks; auto. constructor; auto. apply All_leaf; [exact I|]. left. exact I.
  - exfalso. pose proof (run_shape py p _ _ _ _ _ _ e) as Sh. destruct n as [i0 name0 ns0 attrs0 ch0 tc0 | | | | | ]; cbn in Sh; try discriminate Sh.
    match goal with H : All mark0 (El _ _ _ _ _ _) |- _ => apply All_self in H; destruct H as [[]|Hm] end. cbn [info_of] in *.
    apply run_foreign_el in e; [|exact Hm]. destruct e; discriminate.
  - pose proof (run_shape py p _ _ _ _ _ _ e) as Sh. destruct n; cbn in Sh; try discriminate Sh. injection Sh as -> -> ->.
    match goal with H : All mark0 (Fr _ _ _) |- _ => apply All_Fr_inv in H; destruct H as (K1 & K2) end.
    apply IHWalks2; auto. rewrite Forall_app. split; [assumption|]. constructor; [|constructor]. apply All_Fr; [exact I|]. apply IHWalks1; auto.
  - apply IHWalks; auto. rewrite Forall_app. split; [assumption|]. constructor; [|constructor]. apply All_leaf; [assumption|]. destruct n'; try contradiction; exact I.
Qed.

Definition bare_foreign (n : node) : Prop :=
  match n with
  | El _ name ns _ ch tc => foreign name ns -> Forall (All not_el) ch /\ (forall l, tc = Some l -> Forall (All not_el) l)
  | _ => True
  end.
Lemma foreign_El i name ns attrs ch tc : All bare_foreign (El i name ns attrs ch tc) -> foreign name ns -> Forall (All not_el) ch.
Proof. intros H F. apply All_self in H. exact (proj1 (H F)). Qed.
Lemma not_el_no_insert t ch ch' : Forall (All not_el) ch -> insert_first (insert_into_body t) ch = Some ch' -> False.
Proof.
  revert ch'. induction ch as [|n ch IH]; intros ch' H E; cbn [insert_first] in E; [discriminate E|]. apply Forall_cons_iff in H. destruct H as [Hn H].
  apply All_self in Hn. destruct n; try contradiction; cbn [insert_into_body] in E; destruct (insert_first (insert_into_body t) ch) as [c|]; try discriminate E; eapply IH; eauto.
Qed.
Lemma bare_insert_body i d n n' : All bare_foreign n -> insert_into_body (Tx i d) n = Some n' -> All bare_foreign n'.
Proof.
  intros H E. destruct n as [i0 name ns attrs ch tc | | | | | ]; try discriminate E. cbn [insert_into_body] in E. destruct (str_eqb _ _); [|discriminate E]. injection E as <-.
  apply All_El_inv in H. destruct H as (H1 & H2 & H3).
  assert (G : forall R : node -> Prop, R (Tx i d) -> Forall (All R) ch -> Forall (All R) (firstn (icount i0) ch ++ Tx i d :: skipn (icount i0) ch)).
  { intros R Rt Hr. rewrite <- (firstn_skipn (icount i0) ch) in Hr. apply Forall_app in Hr. destruct Hr as [A B]. apply Forall_app. split; [exact A|]. constructor; [|exact B].
    apply All_leaf; [exact I|exact Rt]. }
  apply All_El; auto.
  - cbn [bare_foreign] in *. intros F. destruct (H1 F) as [A B]. split; [|exact B]. apply G; [exact I|exact A].
  - apply G; [exact I|exact H2].
Qed.
Lemma bare_insert_html i d n n' : All bare_foreign n -> insert_html (Tx i d) n = Some n' -> All bare_foreign n'.
Proof.
  intros H E. destruct n as [i0 name ns attrs ch tc | | | | | ]; try discriminate E. cbn [insert_html] in E. destruct (str_eqb _ _); [|discriminate E].
  destruct (insert_first (insert_into_body (Tx i d)) ch) as [ch'|] eqn:Ei; [|discriminate E]. injection E as <-.
  apply All_El_inv in H. destruct H as (H1 & H2 & H3). apply All_El; auto.
  - cbn [bare_foreign] in *. intros F. exfalso. eapply not_el_no_insert; [|exact Ei]. exact (proj1 (H1 F)).
  - eapply insert_first_Forall; [|exact Ei|exact H2]. intros a b. apply bare_insert_body.
Qed.
Lemma walks_bare doc ctx done pending out fs : Walks py p doc ctx done pending out fs ->
  Forall (top_ok p) pending -> Forall (All bare_foreign) done -> Forall (All bare_foreign) out.
Proof.
  intros H. induction H using Walks_ind2 with (P0 := fun ctx tc tc' fs _ =>
    (forall l, tc = Some l -> Forall (All mark0) l) -> (forall l, tc' = Some l -> Forall (All bare_foreign) l /\ (ctx = true -> Forall (All not_el) l))).
  all: intros; repeat match goal with H : Forall _ (_ :: _) |- _ => apply Forall_cons_iff in H; destruct H end.
  - assumption.
  - auto.
  - assumption.
  - match goal with H : run _ _ _ _ _ _ = Ok (Repl _) _ |- _ => apply run_repl in H; [|assumption] end.
    destruct e as (i & name & ns & attrs & ch & tc & a & b & -> & Hh & -> & Ha & Hb & _).
    match goal with H : top_ok p (El _ _ _ _ _ _) |- _ => destruct H as [_ [T1 T2]] end.
    apply IHWalks; auto; rewrite !Forall_app; repeat split; auto.
    + apply tx_top; exact Ha.
    + apply top_hoisted; assumption.
    + apply tx_top; exact Hb.
  - pose proof (run_shape py p _ _ _ _ _ _ e) as (_ & ti & td & ->).
    apply IHWalks; auto. eapply insert_first_Forall; [|exact e0|eassumption]. intros a b Ha Hb. eapply bare_insert_html; eassumption.
  - pose proof (run_shape py p _ _ _ _ _ _ e) as (_ & ti & td & ->).
    apply IHWalks; auto. eapply insert_first_Forall; [|exact e1|eassumption]. intros a b Ha Hb. eapply top_insert_html; eassumption.
  - pose proof (run_shape py p _ _ _ _ _ _ e) as (_ & ti & td & ->).
    apply IHWalks; auto; constructor; auto. split; [left; exact I|exact I].
  - pose proof (run_shape py p _ _ _ _ _ _ e) as Sh.
    destruct n as [i0 name0 ns0 attrs0 ch0 tc0 | | | | | ]; cbn in Sh; try discriminate Sh. destruct Sh as (-> & -> & -> & -> & ->).
    match goal with H : top_ok p (El _ _ _ _ _ _) |- _ => destruct H as [_ [T1 T2]] end.
    specialize (IHWalks2 T2).
    apply IHWalks3; auto. rewrite Forall_app. split; [assumption|]. constructor; [|constructor]. apply All_El.
    + cbn [bare_foreign]. intros F. rewrite (proj2 (foreign_here_spec _ _ _ _ _ _) F), orb_true_r in *. split.
      * eapply walks_foreign; [eassumption|reflexivity|exact T1|constructor].
      * intros l Hl. apply (IHWalks2 l Hl). reflexivity.
    + apply IHWalks1; auto. eapply Forall_impl; [|exact T1]. intros a. apply mark0_top.
    + intros l Hl. apply (IHWalks2 l Hl).
  - pose proof (run_shape py p _ _ _ _ _ _ e) as Sh. destruct n; cbn in Sh; try discriminate Sh. injection Sh as -> -> ->.
    match goal with H : top_ok p (Fr _ _ _) |- _ => destruct H as [_ T1] end.
    apply IHWalks2; auto. rewrite Forall_app. split; [assumption|]. constructor; [|constructor]. apply All_Fr; [exact I|].
    apply IHWalks1; auto. eapply Forall_impl; [|exact T1]. intros a. apply mark0_top.
  - apply IHWalks; auto. rewrite Forall_app. split; [assumption|]. constructor; [|constructor]. apply All_leaf; [assumption|]. destruct n'; try contradiction; exact I.
  - discriminate.
  - match goal with H : Some _ = Some _ |- _ => injection H as -> end. specialize (H0 l eq_refl). split.
    + apply IHWalks; auto. eapply Forall_impl; [|exact H0]. intros a. apply mark0_top.
    + intros ->. eapply walks_foreign; [exact H|reflexivity|exact H0|constructor].
Qed.
Lemma bare_fresh n : All bare_foreign n -> All bare_foreign (fresh n).
Proof.
  induction n as [i name ns attrs ch tc H1 H2 | i d | i d | i d | i d | i name ch H1] using node_ind2; intros H; cbn [fresh]; try (apply All_leaf; exact I).
  - apply All_El_inv in H. destruct H as (Hn & Hc & Ht). apply All_El.
    + cbn [bare_foreign] in *. intros F. destruct (Hn F) as [A B]. split.
      * apply Forall_map. eapply Forall_impl; [|exact A]. intros x. apply fresh_All. apply not_el_label.
      * intros l El_. destruct tc as [l0|]; [|discriminate El_]. cbn [option_map] in El_. injection El_ as <-. apply Forall_map. eapply Forall_impl; [|exact (B _ eq_refl)].
        intros x. apply fresh_All. apply not_el_label.
    + apply Forall_map. rewrite Forall_forall in *. auto.
    + intros l El_. destruct tc as [l0|]; [|discriminate El_]. cbn [option_map] in El_. injection El_ as <-. specialize (H2 _ eq_refl). specialize (Ht _ eq_refl).
      apply Forall_map. rewrite Forall_forall in *. auto.
  - apply All_Fr_inv in H. destruct H as (Hn & Hc). apply All_Fr; [exact I|]. apply Forall_map. rewrite Forall_forall in *. auto.
Qed.
Lemma mapM_harden_All (R : node -> Prop) l l' fs : (forall n n' gs, All R n -> harden n = Ok n' gs -> All R n') -> mapM harden l = Ok l' fs -> Forall (All R) l -> Forall (All R) l'.
Proof.
  intros Hr H. apply mapM_Ok in H. induction H as [|a b la lb [g Hg] C IH]; intros F; [constructor|]. apply Forall_cons_iff in F. destruct F as [F1 F2].
  constructor; [eapply Hr; eassumption|auto].
Qed.
Lemma tx_All (R : node -> Prop) l : (forall i d, R (Tx i d)) -> Forall is_tx l -> Forall (All R) l.
Proof. intros Hr H. eapply Forall_impl; [|exact H]. intros n Hn. destruct n; try contradiction. apply All_leaf; [exact I|apply Hr]. Qed.
Lemma bare_harden n n' fs : All bare_foreign n -> harden n = Ok n' fs -> All bare_foreign n'.
Proof.
  revert n' fs. induction n as [i name ns attrs ch tc H1 H2 | i d | i d | i d | i d | i name ch H1] using node_ind2; intros n' fs H E; cbn [harden] in E;
    try (injection E as <- _; exact H).
  - pose proof H as H0. apply All_El_inv in H. destruct H as (Hn & Hc & Ht). cbn [bare_foreign] in Hn.
    assert (G : forall l l' gs, Forall (fun n => forall n' fs, All bare_foreign n -> harden n = Ok n' fs -> All bare_foreign n') l -> Forall (All bare_foreign) l -> mapM harden l = Ok l' gs -> Forall (All bare_foreign) l').
    { intros l l' gs A B C. apply mapM_Ok in C. induction C as [|a b la lb [g Hg] C IH]; [constructor|].
      apply Forall_cons_iff in A. apply Forall_cons_iff in B. destruct A as [A1 A2], B as [B1 B2]. constructor; [eapply A1; eassumption|apply IH; assumption]. }
    assert (N : forall l l' gs, mapM harden l = Ok l' gs -> Forall (All not_el) l -> Forall (All not_el) l').
    { intros l l' gs. apply mapM_harden_All. intros a b hs. apply harden_All. apply not_el_label. }
    destruct (in_strs (lower name) _).
    + destruct ch as [|c0 ch].
      { assert (n' = El i name ns attrs [] tc) as -> by congruence. exact H0. }
      apply bind_Ok in E. destruct E as (ch' & ? & ? & E & Q & _). assert (n' = El i name ns attrs ch' tc) as -> by congruence. apply harden_children_tx in E.
      apply All_El; [|apply tx_All; [intros; exact I|exact E]|exact Ht]. cbn [bare_foreign]. intros F. split; [apply tx_All; [intros; exact I|exact E]|]. exact (proj2 (Hn F)).
    + apply bind_Ok in E. destruct E as (tc' & ? & ? & E1 & E & _). apply bind_Ok in E. destruct E as (ch' & ? & ? & E2 & E & _).
      assert (n' = El i name ns attrs ch' tc') as -> by congruence.
      assert (T : forall l, tc' = Some l -> exists l0 gs, tc = Some l0 /\ mapM harden l0 = Ok l gs).
      { intros l ->. destruct tc as [l0|]; [|discriminate E1]. apply bind_Ok in E1. destruct E1 as (l' & ? & ? & E1 & Q & _). assert (l = l') as -> by congruence. eauto. }
      apply All_El.
      * cbn [bare_foreign]. intros F. destruct (Hn F) as [A B]. split; [eapply N; eassumption|]. intros l Hl. destruct (T l Hl) as (l0 & gs & -> & El_). eapply N; [exact El_|exact (B _ eq_refl)].
      * eapply G; eassumption.
      * intros l Hl. destruct (T l Hl) as (l0 & gs & -> & El_). eapply G; [exact (H2 _ eq_refl)|exact (Ht _ eq_refl)|exact El_].
  - apply All_Fr_inv in H. destruct H as (Hn & Hc). apply bind_Ok in E. destruct E as (ch' & ? & ? & E & Q & _). assert (n' = Fr i name ch') as -> by congruence.
    apply All_Fr; [exact I|]. apply mapM_Ok in E. clear - E H1 Hc.
    induction E as [|a b la lb [g Hg] C IH]; [constructor|].
    apply Forall_cons_iff in H1. apply Forall_cons_iff in Hc. destruct H1 as [A1 A2], Hc as [B1 B2]. constructor; [eapply A1; eassumption|apply IH; assumption].
Qed.
Lemma apply_children_bare doc ch out fs : apply_children py p doc ch = Ok out fs -> Forall (All bare_foreign) out.
Proof.
  intros H. unfold apply_children in H. apply bind_Ok in H. destruct H as (o & ? & ? & Hw & H & _).
  assert (Ho : Forall (All bare_foreign) (map fresh o)).
  { apply Forall_map. eapply Forall_impl; [intros a; apply bare_fresh|]. apply walk_Walks in Hw. eapply walks_bare; [exact Hw| |constructor].
    apply Forall_map. apply Forall_forall. intros y _. apply mark0_top. apply fresh_mark0. }
  destruct (existsb _ _); [|injection H as <- _; exact Ho]. eapply mapM_harden_All; [|exact H|exact Ho]. intros. eapply bare_harden; eassumption.
Qed.
Lemma foreign_bare n out fs : apply_policy_to_root py p n = Ok out fs -> All bare_foreign out.
Proof.
  intros H.
  assert (G : bind (apply_children py p false [n]) (fun ch' => match ch' with [only] => Ok only [] | _ => Ok (Fr no_info (u "#document-fragment") ch') [] end) = Ok out fs -> All bare_foreign out).
  { intros Q. apply bind_Ok in Q. destruct Q as (ch' & ? & ? & Q & Q2 & _). apply apply_children_bare in Q.
    destruct ch' as [|c [|c2 r]].
    - assert (out = Fr no_info (u "#document-fragment") []) as -> by congruence. apply All_Fr; [exact I|auto].
    - assert (out = c) as -> by congruence. apply Forall_cons_iff in Q. apply Q.
    - assert (out = Fr no_info (u "#document-fragment") (c :: c2 :: r)) as -> by congruence. apply All_Fr; [exact I|auto]. }
  destruct n as [i name ns attrs ch tc | i d | i d | i d | i d | i name ch]; try exact (G H).
  cbn [apply_policy_to_root] in H. apply bind_Ok in H. destruct H as (ch' & ? & ? & H & Q & _). assert (out = Fr i name ch') as -> by congruence.
  apply All_Fr; [exact I|]. eapply apply_children_bare. exact H.
Qed.
End Drop.
