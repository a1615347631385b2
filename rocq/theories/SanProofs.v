(* C22, C23: invariants of the walk. *)
From Coq Require Import Lia.
From Verif Require Import Str StrFacts SerializerModel UrlModel CssModel SanModel SanSpec SanFacts SanFuel.
Open Scope N_scope.

Definition All (R : node -> Prop) (n : node) : Prop := forall x, inside x n -> R x.
Lemma All_El (R : node -> Prop) i name ns attrs ch tc : R (El i name ns attrs ch tc) -> Forall (All R) ch -> (forall l, tc = Some l -> Forall (All R) l) ->
  All R (El i name ns attrs ch tc).
Proof.
  intros H1 H2 H3 x Hx. inversion Hx; subst.
  - exact H1.
  - rewrite Forall_forall in H2. eapply H2; eassumption.
  - specialize (H3 _ eq_refl). rewrite Forall_forall in H3. eapply H3; eassumption.
Qed.
Lemma All_El_inv (R : node -> Prop) i name ns attrs ch tc : All R (El i name ns attrs ch tc) ->
  R (El i name ns attrs ch tc) /\ Forall (All R) ch /\ (forall l, tc = Some l -> Forall (All R) l).
Proof.
  intros H. split; [apply H; constructor|]. split.
  - apply Forall_forall. intros c Hc x Hx. apply H. eapply in_child; eassumption.
  - intros l ->. apply Forall_forall. intros c Hc x Hx. apply H. eapply in_template; eassumption.
Qed.
Lemma All_Fr (R : node -> Prop) i name ch : R (Fr i name ch) -> Forall (All R) ch -> All R (Fr i name ch).
Proof. intros H1 H2 x Hx. inversion Hx; subst; [exact H1|]. rewrite Forall_forall in H2. eapply H2; eassumption. Qed.
Lemma All_Fr_inv (R : node -> Prop) i name ch : All R (Fr i name ch) -> R (Fr i name ch) /\ Forall (All R) ch.
Proof. intros H. split; [apply H; constructor|]. apply Forall_forall. intros c Hc x Hx. apply H. eapply in_frag; eassumption. Qed.
Lemma All_leaf (R : node -> Prop) n : match n with El _ _ _ _ _ _ | Fr _ _ _ => False | _ => True end -> R n -> All R n.
Proof. intros Hn H x Hx. inversion Hx; subst; try contradiction. exact H. Qed.
Lemma All_self (R : node -> Prop) n : All R n -> R n.
Proof. intros H. apply H. constructor. Qed.

(* predicates that look at the label of a node only *)
Record label_pred (R : node -> Prop) : Prop := {
  lp_el : forall i name ns attrs ch tc i' ch' tc', R (El i name ns attrs ch tc) -> R (El i' name ns attrs ch' tc');
  lp_fr : forall i name ch i' ch', R (Fr i name ch) -> R (Fr i' name ch');
  lp_info : forall i n, R n -> R (set_info i n);
  lp_tx : forall i d, R (Tx i d) }.

Lemma All_set_info (R : node -> Prop) i n : label_pred R -> All R n -> All R (set_info i n).
Proof.
  intros L H. destruct n as [i0 name ns attrs ch tc | i0 d | i0 d | i0 d | i0 d | i0 name ch]; cbn [set_info].
  - apply All_El_inv in H. destruct H as (H1 & H2 & H3). apply All_El; auto. eapply (lp_el _ L). exact H1.
  - apply All_leaf; [exact I|]. apply (lp_tx _ L).
  - apply All_leaf; [exact I|]. apply (lp_info _ L i (Cm i0 d)). apply All_self. exact H.
  - apply All_leaf; [exact I|]. apply (lp_info _ L i (Pi i0 d)). apply All_self. exact H.
  - apply All_leaf; [exact I|]. apply (lp_info _ L i (Dt i0 d)). apply All_self. exact H.
  - apply All_Fr_inv in H. destruct H as (H1 & H2). apply All_Fr; auto. eapply (lp_fr _ L). exact H1.
Qed.

Lemma insert_first_Forall (P : node -> Prop) f l l' : (forall n n', P n -> f n = Some n' -> P n') -> insert_first f l = Some l' -> Forall P l -> Forall P l'.
Proof.
  intros Hf. revert l'. induction l as [|n l IH]; intros l' H F; cbn [insert_first] in H; [discriminate H|]. inversion F; subst.
  destruct (f n) as [n'|] eqn:E.
  - injection H as <-. constructor; [eapply Hf; eassumption|assumption].
  - destruct (insert_first f l) as [l1|]; [|discriminate H]. injection H as <-. constructor; [assumption|]. apply IH; auto.
Qed.
Lemma All_insert_body (R : node -> Prop) i d n n' : label_pred R -> All R n -> insert_into_body (Tx i d) n = Some n' -> All R n'.
Proof.
  intros L H E. destruct n as [i0 name ns attrs ch tc | | | | | ]; try discriminate E. cbn [insert_into_body] in E. destruct (str_eqb _ _); [|discriminate E]. injection E as <-.
  apply All_El_inv in H. destruct H as (H1 & H2 & H3). apply All_El; auto.
  - eapply (lp_el _ L). exact H1.
  - rewrite <- (firstn_skipn (icount i0) ch) in H2. apply Forall_app in H2. destruct H2 as [A B]. apply Forall_app. split; [exact A|]. constructor; [|exact B].
    apply All_leaf; [exact I|]. apply (lp_tx _ L).
Qed.
Lemma All_insert_html (R : node -> Prop) i d n n' : label_pred R -> All R n -> insert_html (Tx i d) n = Some n' -> All R n'.
Proof.
  intros L H E. destruct n as [i0 name ns attrs ch tc | | | | | ]; try discriminate E. cbn [insert_html] in E. destruct (str_eqb _ _); [|discriminate E].
  destruct (insert_first (insert_into_body (Tx i d)) ch) as [ch'|] eqn:Ei; [|discriminate E]. injection E as <-.
  apply All_El_inv in H. destruct H as (H1 & H2 & H3). apply All_El; auto.
  - eapply (lp_el _ L). exact H1.
  - eapply insert_first_Forall; [|exact Ei|exact H2]. intros a b Ha Hb. eapply All_insert_body; eassumption.
Qed.

Section Inv.
Variable py : urllib.
Variable p : policy.

(* marks: only nodes that were just hoisted are marked *)
Definition is_tx (n : node) : Prop := match n with Tx _ _ => True | _ => False end.
Definition mark0 (n : node) : Prop := is_tx n \/ mark (info_of n) = 0%nat.
Definition bound : nat := match disallowed_tag_handling p with TDrop => 0%nat | _ => 1%nat end.
Definition top_ok (n : node) : Prop :=
  (is_tx n \/ (mark (info_of n) <= bound)%nat) /\
  match n with
  | El _ _ _ _ ch tc => Forall (All mark0) ch /\ (forall l, tc = Some l -> Forall (All mark0) l)
  | Fr _ _ ch => Forall (All mark0) ch
  | _ => True
  end.
Lemma bound_le : (bound <= 1)%nat.
Proof. unfold bound. destruct (disallowed_tag_handling p); lia. Qed.
Lemma mark0_top n : All mark0 n -> top_ok n.
Proof.
  intros H. split.
  - destruct (All_self _ _ H) as [A|A]; [left; exact A|right; rewrite A; lia].
  - destruct n; auto; [apply All_El_inv in H|apply All_Fr_inv in H]; intuition.
Qed.
Lemma top_mark_start n : disallowed_tag_handling p <> TDrop -> All mark0 n -> top_ok (mark_start 1 n).
Proof.
  intros Hh H. apply mark0_top in H as Ht. destruct Ht as [_ Ht]. split.
  - destruct (All_self _ _ H) as [A|A].
    + left. destruct n; try contradiction. exact I.
    + right. unfold bound. destruct n; cbn [mark_start set_info info_of mark_info mark] in *; rewrite A; destruct (disallowed_tag_handling p); cbn; congruence || lia.
  - destruct n; exact Ht.
Qed.
Lemma top_insert_html i d n n' : top_ok n -> insert_html (Tx i d) n = Some n' -> top_ok n'.
Proof.
  intros [H1 H2] E. destruct n as [i0 name ns attrs ch tc | | | | | ]; try discriminate E. cbn [insert_html] in E. destruct (str_eqb _ _); [|discriminate E].
  destruct (insert_first (insert_into_body (Tx i d)) ch) as [ch'|] eqn:Ei; [|discriminate E]. injection E as <-. split; [exact H1|].
  destruct H2 as [H2 H3]. split; [|exact H3]. eapply insert_first_Forall; [|exact Ei|exact H2]. clear. intros n n' H E.
  destruct n as [i0 name ns attrs ch tc | | | | | ]; try discriminate E. cbn [insert_into_body] in E. destruct (str_eqb _ _); [|discriminate E]. injection E as <-.
  apply All_El_inv in H. destruct H as (H1 & H2 & H3). apply All_El; auto.
  rewrite <- (firstn_skipn (icount i0) ch) in H2. apply Forall_app in H2. destruct H2 as [A B]. apply Forall_app. split; [exact A|]. constructor; [|exact B].
  apply All_leaf; [exact I|]. left. exact I.
Qed.

(* what replaces a disallowed element *)
Lemma decide_repl i name ns attrs ch tc l fs : decide p 1 i name ns attrs ch tc = Some (Ok (Repl l) fs) ->
  disallowed_tag_handling p <> TDrop /\ exists a b, l = (a ++ hoisted 1 ch tc ++ b)%list /\ Forall is_tx a /\ Forall is_tx b /\
  (disallowed_tag_handling p = TUnwrap -> a = [] /\ b = []).
Proof.
  unfold decide. destruct (in_strs _ (allowed_tags p)); [discriminate|]. destruct (in_strs _ _); intros H; [discriminate H|].
  destruct (disallowed_tag_handling p) eqn:Eh.
  - destruct (hoisted 1 ch tc) as [|x r] eqn:E; [discriminate H|]. injection H as <- _. split; [discriminate|]. exists [], []. rewrite app_nil_r. repeat split; constructor.
  - destruct (escape_node 1 i name ns attrs ch tc) as [l0|] eqn:E; [|discriminate H]. injection H as <- _. split; [discriminate|].
    unfold escape_node in E. destruct (match raw_start i with Some s => _ | None => _ end) as [s|]; [|discriminate E].
    destruct (match raw_end i with Some s => _ | None => _ end) as [e|]; [|discriminate E]. injection E as <-.
    assert (T : forall t, Forall is_tx (opt_text 1 t)) by (intros [[|c r]|]; repeat constructor).
    exists (opt_text 1 s), (opt_text 1 e). split; [reflexivity|]. split; [apply T|]. split; [apply T|]. discriminate.
  - discriminate H.
Qed.
Lemma run_repl n nf l fs : top_ok n -> run py p (mark (info_of n)) (skipn (mark (info_of n)) (pipeline p)) nf n = Ok (Repl l) fs ->
  exists i name ns attrs ch tc a b, n = El i name ns attrs ch tc /\ disallowed_tag_handling p <> TDrop /\
    l = (a ++ hoisted 1 ch tc ++ b)%list /\ Forall is_tx a /\ Forall is_tx b /\ (disallowed_tag_handling p = TUnwrap -> a = [] /\ b = []).
Proof.
  intros [Hm _] H. pose proof bound_le as Hb. destruct n as [i name ns attrs ch tc | i d | i d | i d | i d | i name ch]; cbn [info_of] in *.
  - rewrite run_El in H by (destruct Hm as [[]|Hm]; lia). destruct (_ && nf).
    { match type of H with context [if ?b then GoneAll else Gone] => destruct b end; discriminate H. }
    destruct (decide p 1 i name ns attrs ch tc) as [o|] eqn:E.
    + subst o. apply decide_repl in E. destruct E as (E1 & a & b & E2). exists i, name, ns, attrs, ch, tc, a, b. auto.
    + apply bind_Ok in H. destruct H as (? & ? & ? & _ & H & _). discriminate H.
  - destruct (run_text py p (mark i) nf i d) as (d' & gs & E & _). rewrite E in H. discriminate H.
  - rewrite (run_comment py p (mark i) nf (Cm i d) i d) in H; [|destruct Hm as [[]|Hm]; lia|auto]. destruct (pol_drop_comments p); [|discriminate H]. destruct (disallowed_tag_handling p); discriminate H.
  - rewrite (run_comment py p (mark i) nf (Pi i d) i d) in H; [|destruct Hm as [[]|Hm]; lia|auto]. destruct (pol_drop_comments p); [|discriminate H]. destruct (disallowed_tag_handling p); discriminate H.
  - rewrite run_doctype in H by (destruct Hm as [[]|Hm]; lia). destruct (pol_drop_doctype p); discriminate H.
  - rewrite run_Fr in H. discriminate H.
Qed.
Lemma top_hoisted ch tc : disallowed_tag_handling p <> TDrop -> Forall (All mark0) ch -> (forall l, tc = Some l -> Forall (All mark0) l) ->
  Forall top_ok (hoisted 1 ch tc).
Proof.
  intros Hh H1 H2. unfold hoisted. apply Forall_forall. intros x Hx. apply in_map_iff in Hx. destruct Hx as (y & <- & Hy). apply top_mark_start; [exact Hh|].
  apply in_app_or in Hy. destruct Hy as [Hy|Hy]; [rewrite Forall_forall in H1; auto|]. destruct tc as [l|]; [|destruct Hy]. specialize (H2 l eq_refl). rewrite Forall_forall in H2. auto.
Qed.
Lemma tx_top l : Forall is_tx l -> Forall top_ok l.
Proof. intros H. eapply Forall_impl; [|exact H]. intros n Hn. destruct n; try contradiction. split; [left; exact I|exact I]. Qed.
Lemma All_tx (R : node -> Prop) l : label_pred R -> Forall is_tx l -> Forall (All R) l.
Proof. intros L H. eapply Forall_impl; [|exact H]. intros n Hn. destruct n; try contradiction. apply All_leaf; [exact I|apply (lp_tx _ L)]. Qed.
Lemma All_hoisted (R : node -> Prop) ch tc k : label_pred R -> Forall (All R) ch -> (forall l, tc = Some l -> Forall (All R) l) -> Forall (All R) (hoisted k ch tc).
Proof.
  intros L H1 H2. unfold hoisted. apply Forall_forall. intros x Hx. apply in_map_iff in Hx. destruct Hx as (y & <- & Hy). apply All_set_info; [exact L|].
  apply in_app_or in Hy. destruct Hy as [Hy|Hy]; [rewrite Forall_forall in H1; auto|]. destruct tc as [l|]; [|destruct Hy]. specialize (H2 l eq_refl). rewrite Forall_forall in H2. auto.
Qed.

(* [K] holds of all input nodes, [R] of all that are kept *)
Variables K R : node -> Prop.
Hypothesis LK : label_pred K.
Hypothesis LR : label_pred R.
Hypothesis Hstay : forall n nf n' fs, top_ok n -> K n -> (foreign_here n = true -> nf = true) ->
  run py p (mark (info_of n)) (skipn (mark (info_of n)) (pipeline p)) nf n = Ok (Stay n') fs -> R n'.

Lemma orb_foreign ctx n : foreign_here n = true -> ctx || foreign_here n = true.
Proof. intros ->. apply orb_true_r. Qed.

Lemma walks_inv doc ctx done pending out fs : Walks py p doc ctx done pending out fs ->
  Forall top_ok pending -> Forall (All K) pending -> Forall (All R) done -> Forall (All R) out.
Proof.
  intros H. induction H using Walks_ind2 with (P0 := fun ctx tc tc' fs _ =>
    (forall l, tc = Some l -> Forall top_ok l /\ Forall (All K) l) -> (forall l, tc' = Some l -> Forall (All R) l)).
  all: intros; repeat match goal with H : Forall _ (_ :: _) |- _ => apply Forall_cons_iff in H; destruct H end.
  - assumption.
  - auto.
  - assumption.
  - (* repl *)
    match goal with H : run _ _ _ _ _ _ = Ok (Repl _) _ |- _ => apply run_repl in H; [|assumption] end.
    destruct e as (i & name & ns & attrs & ch & tc & a & b & -> & Hh & -> & Ha & Hb & _).
    match goal with H : top_ok (El _ _ _ _ _ _) |- _ => destruct H as [_ [T1 T2]] end.
    match goal with H : All K (El _ _ _ _ _ _) |- _ => apply All_El_inv in H; destruct H as (K1 & K2 & K3) end.
    apply IHWalks; auto; rewrite !Forall_app; repeat split; auto.
    + apply tx_top; exact Ha.
    + apply top_hoisted; assumption.
    + apply tx_top; exact Hb.
    + apply All_tx; assumption.
    + apply All_hoisted; assumption.
    + apply All_tx; assumption.
  - pose proof (run_shape py p _ _ _ _ _ _ e) as (_ & ti & td & ->).
    apply IHWalks; auto. eapply insert_first_Forall; [|exact e0|eassumption]. intros a b Ha Hb. eapply All_insert_html; eassumption.
  - pose proof (run_shape py p _ _ _ _ _ _ e) as (_ & ti & td & ->).
    apply IHWalks; auto.
    + eapply insert_first_Forall; [|exact e1|eassumption]. intros a b Ha Hb. eapply top_insert_html; eassumption.
    + eapply insert_first_Forall; [|exact e1|eassumption]. intros a b Ha Hb. eapply All_insert_html; eassumption.
  - pose proof (run_shape py p _ _ _ _ _ _ e) as (_ & ti & td & ->).
    apply IHWalks; auto; constructor; auto.
    + split; [left; exact I|exact I].
    + apply All_leaf; [exact I|]. apply (lp_tx _ LK).
  - (* element *)
    pose proof (run_shape py p _ _ _ _ _ _ e) as Sh.
    assert (Rn : R (El i name ns attrs ch tc)) by (eapply Hstay; [| | |exact e]; [assumption|apply All_self; assumption|apply orb_foreign]).
    destruct n as [i0 name0 ns0 attrs0 ch0 tc0 | | | | | ]; cbn [same_shape] in Sh; try discriminate Sh. destruct Sh as (-> & -> & -> & -> & ->).
    match goal with H : top_ok (El _ _ _ _ _ _) |- _ => destruct H as [_ [T1 T2]] end.
    match goal with H : All K (El _ _ _ _ _ _) |- _ => apply All_El_inv in H; destruct H as (K1 & K2 & K3) end.
    apply IHWalks3; auto. rewrite Forall_app. split; [assumption|]. constructor; [|constructor]. apply All_El.
    + eapply (lp_el _ LR). exact Rn.
    + apply IHWalks1; auto. eapply Forall_impl; [|exact T1]. intros a. apply mark0_top.
    + apply IHWalks2. intros l Hl. split; [|apply K3; exact Hl]. eapply Forall_impl; [|exact (T2 l Hl)]. intros a. apply mark0_top.
  - pose proof (run_shape py p _ _ _ _ _ _ e) as Sh.
    assert (Rn : R (Fr i name ch)) by (eapply Hstay; [| | |exact e]; [assumption|apply All_self; assumption|apply orb_foreign]).
    destruct n; cbn [same_shape] in Sh; try discriminate Sh. injection Sh as -> -> ->.
    match goal with H : top_ok (Fr _ _ _) |- _ => destruct H as [_ T1] end.
    match goal with H : All K (Fr _ _ _) |- _ => apply All_Fr_inv in H; destruct H as (K1 & K2) end.
    apply IHWalks2; auto. rewrite Forall_app. split; [assumption|]. constructor; [|constructor]. apply All_Fr.
    + eapply (lp_fr _ LR). exact Rn.
    + apply IHWalks1; auto. eapply Forall_impl; [|exact T1]. intros a. apply mark0_top.
  - apply IHWalks; auto. rewrite Forall_app. split; [assumption|]. constructor; [|constructor]. apply All_leaf; [assumption|].
    eapply Hstay; [| | |exact e]; [assumption|apply All_self; assumption|apply orb_foreign].
  - discriminate.
  - match goal with H : Some _ = Some _ |- _ => injection H as -> end. destruct (H0 l eq_refl). apply IHWalks; auto.
Qed.
End Inv.
