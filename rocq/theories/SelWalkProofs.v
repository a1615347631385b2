(* Proofs: the traversal of query(). *)
From Verif Require Import Str StrFacts SerializerModel SanModel SanFacts SanTreeProofs DomModel DomSpec DomViewProofs DomProofs DomInvProofs DomFinal SelModel SelSpec SelNodeProofs SelSibProofs SelMatchProofs SelChainProofs SelTopProofs SelQueryProofs.
From Coq Require Import Lia Relations.
Open Scope nat_scope.

Lemma pushes_inner h : reached_full h -> forall x, pushes h x = inner h x.
Proof.
  intros R x. unfold pushes, inner, has_name, name_of, node_name, content. f_equal. destruct (str_eqb (nm (cell_at h x)) (u "template")); [|reflexivity]. cbn [andb].
  pose proof (reached_full_inv h R) as I. destruct (tcon (cell_at h x)) as [f|] eqn:T; [|destruct (opt_str_eqb _ _); reflexivity].
  destruct (Nat.lt_ge_cases x (hnext h)) as [L | G].
  - destruct (i_ok _ _ I x L) as [_ O]. destruct (kd (cell_at h x)); rewrite T in O; try (exfalso; repeat match goal with H : _ /\ _ |- _ => destruct H end; discriminate).
    destruct O as [_ [_ [_ O]]]. rewrite (proj1 O) by discriminate. reflexivity.
  - destruct (w_out _ _ _ _ _ _ (i_wf _ _ I) x G) as [_ [_ Q]]. unfold vT in Q. congruence.
Qed.

Section W.
Variable h : heap.
Hypothesis RF : reached_full h.
Let FF := reached_ff h RF.
Let F := ff_forest h FF.

Lemma inner_below x y : In y (inner h x) -> below h x y.
Proof.
  unfold inner. intros H. apply in_app_or in H. destruct H as [H | H]; [|left; exact H]. right. destruct (str_eqb (node_name h x) (u "template")); [|destruct H].
  destruct (content h x) as [f|]; [|destruct H]. destruct H as [-> | []]. reflexivity.
Qed.
Lemma inner_parent x y : In y (inner h x) -> parent h y = Some x.
Proof. intros H. apply inner_below in H. destruct H as [H | H]; [apply (child_has_parent h F); exact H|apply (content_has_parent h FF x y H)]. Qed.
Lemma inner_nodup x : NoDup (inner h x).
Proof.
  unfold inner. pose proof (child_once h F x) as ND. destruct (str_eqb (node_name h x) (u "template")); [|exact ND]. destruct (content h x) as [f|] eqn:C; [|exact ND].
  cbn [app]. apply NoDup_cons_iff. split; [|exact ND]. intros Q. apply (child_no_fragment h F _ _ Q). apply (content_has_parent h FF x f C).
Qed.
Lemma doc_order_ind2 (P : nat -> list nat -> Prop) : (forall x ls, Forall2 (doc_order h) (inner h x) ls -> Forall2 P (inner h x) ls -> P x (x :: List.concat ls)) -> forall x l, doc_order h x l -> P x l.
Proof.
  intros H. fix go 3. intros x l D. destruct D as [x ls D]. apply H; [exact D|]. clear H. induction D; constructor; [apply go; assumption|assumption].
Qed.

Lemma above_anti a b : above h a b -> above h b a -> a = b.
Proof.
  intros H1 H2. destruct H1 as [|a b p P H1]; [reflexivity|]. exfalso.
  assert (T : forall a b, above h a b -> a = b \/ clos_trans nat (fun p c => parent h c = Some p) a b).
  { intros a0 b0 H. induction H as [|a0 x p0 P0 H0 IH]; [left; reflexivity|]. right. destruct IH as [-> | IH]; [apply t_step; exact P0|eapply t_trans; [exact IH|apply t_step; exact P0]]. }
  apply (no_ancestor_cycle h F b). destruct (T _ _ H1) as [E1 | E1]; destruct (T _ _ H2) as [E2 | E2]; subst.
  - apply t_step. exact P.
  - eapply t_trans; [exact E2|apply t_step; exact P].
  - eapply t_trans; [exact E1|apply t_step; exact P].
  - eapply t_trans; [exact E2|]. eapply t_trans; [exact E1|apply t_step; exact P].
Qed.
Lemma order_above x l : doc_order h x l -> forall y, In y l -> above h x y.
Proof.
  revert x l. apply (doc_order_ind2 (fun x l => forall y, In y l -> above h x y)). intros x ls D IH y [<- | Hy]; [constructor|]. apply in_concat in Hy. destruct Hy as [l [Hl Hy]].
  assert (Z : exists c, In c (inner h x) /\ above h c y).
  { clear D. induction IH as [|c l0 cs ls' H1 H2 IHf]; [destruct Hl|]. destruct Hl as [<- | Hl]; [exists c; split; [left; reflexivity|auto]|]. destruct (IHf Hl) as [c' [Q1 Q2]]. exists c'. split; [right; exact Q1|exact Q2]. }
  destruct Z as [c [Z1 Z2]]. apply inner_parent in Z1. apply (above_trans h x c y); [|exact Z2]. eapply above_up; [exact Z1|constructor].
Qed.
Lemma order_nodup x l : doc_order h x l -> NoDup l.
Proof.
  revert x l. apply (doc_order_ind2 (fun x l => NoDup l)). intros x ls D IH. apply NoDup_cons_iff. split.
  - intros Q. apply in_concat in Q. destruct Q as [l [Hl Hx]].
    assert (Z : exists c, In c (inner h x) /\ above h c x).
    { clear IH. induction D as [|c l0 cs ls' H1 H2 IHf]; [destruct Hl|]. destruct Hl as [<- | Hl]; [exists c; split; [left; reflexivity|eapply order_above; eauto]|]. destruct (IHf Hl) as [c' [Q1 Q2]]. exists c'. split; [right; exact Q1|exact Q2]. }
    destruct Z as [c [Z1 Z2]]. apply inner_parent in Z1. assert (c = x) as -> by (apply above_anti; [exact Z2|eapply above_up; [exact Z1|constructor]]).
    apply (no_ancestor_cycle h F x). apply t_step. exact Z1.
  - assert (PA : forall c, In c (inner h x) -> parent h c = Some x) by (intros c; apply inner_parent). pose proof (inner_nodup x) as NI.
    induction D as [|c l cs ls H1 H2 IHf]; cbn [List.concat]; [constructor|]. inversion IH; subst. apply NoDup_cons_iff in NI. destruct NI as [N1 N2].
    assert (A1 : NoDup (List.concat ls)) by (apply IHf; [assumption|intros c' Hc'; apply PA; right; exact Hc'|exact N2]). clear IHf.
    assert (DJ : forall y, In y l -> ~ In y (List.concat ls)).
    { intros y Hy Q. apply in_concat in Q. destruct Q as [l' [Hl' Hy']].
      assert (Z : exists c', In c' cs /\ above h c' y).
      { clear - H2 Hl' Hy' FF F. induction H2 as [|c' l0 cs ls' H1 H2 IHf]; [destruct Hl'|]. destruct Hl' as [<- | Hl]; [exists c'; split; [left; reflexivity|eapply order_above; eauto]|]. destruct (IHf Hl) as [c0 [Q1 Q2]]. exists c0. split; [right; exact Q1|exact Q2]. }
      destruct Z as [c' [Z1 Z2]]. pose proof (order_above _ _ H1 y Hy) as Z3. pose proof (PA c (or_introl eq_refl)) as P1. pose proof (PA c' (or_intror Z1)) as P2.
      assert (X : forall a b, parent h a = Some x -> parent h b = Some x -> above h a b -> a = b).
      { intros a b Pa Pb Hab. inversion Hab as [|? ? q Pq Hq]; subst; [reflexivity|]. assert (q = x) as -> by congruence. exfalso.
        assert (a = x) as -> by (apply above_anti; [exact Hq|eapply above_up; [exact Pa|constructor]]). apply (no_ancestor_cycle h F x). apply t_step. exact Pa. }
      assert (c = c') by (destruct (above_linear h c c' y Z3 Z2) as [Q | Q]; [apply X; assumption|symmetry; apply X; assumption]). subst c'. contradiction. }
    match goal with H : NoDup l |- _ => revert H end. intros NL. clear - DJ A1 NL. induction l as [|a l IHl]; [exact A1|]. cbn [app]. apply NoDup_cons_iff in NL. destruct NL as [N1 N2].
    apply NoDup_cons_iff. split; [intros Q; apply in_app_or in Q; destruct Q as [Q | Q]; [contradiction|exact (DJ a (or_introl eq_refl) Q)]|]. apply IHl; [intros y Hy; apply DJ; right; exact Hy|exact N2].
Qed.
Lemma order_exists x : exists l, doc_order h x l.
Proof.
  induction x as [x IH] using (well_founded_ind (traversal_ends h FF)).
  assert (Z : exists ls, Forall2 (doc_order h) (inner h x) ls).
  { assert (B : forall y, In y (inner h x) -> exists l, doc_order h y l) by (intros y Hy; apply IH; apply inner_below; exact Hy). clear IH.
    induction (inner h x) as [|c cs IHc]; [exists []; constructor|]. destruct (B c (or_introl eq_refl)) as [l Hl]. destruct (IHc (fun y Hy => B y (or_intror Hy))) as [ls Hls]. exists (l :: ls). constructor; assumption. }
  destruct Z as [ls Hls]. exists (x :: List.concat ls). constructor. exact Hls.
Qed.

(* ---- the loop ---- *)
Variable over : nat -> bool.
Variable hit : nat -> M bool.
Fixpoint scan (ds : list nat) : M (list nat) :=
  match ds with
  | [] => ret_ []
  | x :: t => bind (tick over) (fun _ => bind (hit x) (fun b => bind (scan t) (fun r => ret_ (if b then x :: r else r))))
  end.
Lemma loop_scan fuel : forall stack visited ls st, Forall2 (doc_order h) stack ls -> NoDup (List.concat ls) -> (forall y, In y (List.concat ls) -> ~ In y visited) ->
  List.length (List.concat ls) < fuel -> query_loop h over hit fuel stack visited st = scan (List.concat ls) st.
Proof.
  induction fuel as [|k IH]; intros stack visited ls st D ND NV L; [lia|]. destruct D as [|x l rest ls Dx Dr]; cbn [query_loop]; [reflexivity|].
  destruct Dx as [x lx Dx]. cbn [List.concat app] in *. apply NoDup_cons_iff in ND. destruct ND as [N1 N2].
  assert (existsb (Nat.eqb x) visited = false) as ->.
  { destruct (existsb (Nat.eqb x) visited) eqn:Q; [|reflexivity]. apply existsb_exists in Q. destruct Q as [y [Q1 Q2]]. apply Nat.eqb_eq in Q2. subst y. exfalso. apply (NV x); [left; reflexivity|exact Q1]. }
  cbn [scan]. unfold bind. destruct (tick over st) as [[] s1|e]; [|reflexivity]. destruct (hit x s1) as [b s2|e]; [|reflexivity].
  rewrite (pushes_inner h RF x). rewrite <- concat_app in *.
  rewrite (IH (inner h x ++ rest)%list (x :: visited) (lx ++ ls)%list s2); [reflexivity| | | |].
  - apply Forall2_app; assumption.
  - exact N2.
  - intros y Hy [<- | Q]; [contradiction|]. apply (NV y); [right; exact Hy|exact Q].
  - cbn [List.length] in L. lia.
Qed.
Lemma query_scan fuel root ds st : doc_order h root (root :: ds) -> List.length ds < fuel -> query_loop h over hit fuel (pushes h root) [root] st = scan ds st.
Proof.
  intros D L. pose proof (order_nodup _ _ D) as ND. inversion D as [x ls D' E1 E2]; subst. rewrite (pushes_inner h RF root). apply NoDup_cons_iff in ND. destruct ND as [N1 N2].
  apply loop_scan; [exact D'|exact N2|intros y Hy [<- | []]; contradiction|exact L].
Qed.
Lemma order_len root ds : root < hnext h -> doc_order h root (root :: ds) -> List.length ds < hnext h.
Proof.
  intros Hr D. pose proof (order_nodup _ _ D) as ND.
  assert (I : incl (root :: ds) (seq 0 (hnext h))).
  { intros y Hy. apply in_seq. split; [lia|]. cbn [Nat.add]. pose proof (order_above _ _ D y Hy) as A. inversion A as [|? ? p P _]; subst; [exact Hr|].
    destruct (Nat.lt_ge_cases y (hnext h)) as [|G]; [assumption|]. destruct (only_allocated h F y G) as [Q _]. congruence. }
  pose proof (NoDup_incl_length ND I) as L. rewrite seq_length in L. cbn [List.length] in L. lia.
Qed.

(* ---- what the scan picks ---- *)
Lemma scan_picks (P : qstate -> Prop) (T : nat -> bool -> Prop) : (forall s, P s -> forall u s', tick over s = MOk u s' -> P s') ->
  (forall x s b s', P s -> hit x s = MOk b s' -> P s' /\ T x b) ->
  forall ds st l st', P st -> scan ds st = MOk l st' -> P st' /\ sublist l ds /\ (NoDup ds -> forall x, In x ds -> (In x l /\ T x true) \/ (~ In x l /\ T x false)).
Proof.
  intros HT HH. induction ds as [|x ds IH]; intros st l st' Ps E; cbn [scan] in E.
  - injection E as <- <-. split; [exact Ps|]. split; [constructor|]. intros _ x [].
  - unfold bind in E. destruct (tick over st) as [[] s1|e] eqn:Tk; [|discriminate E]. pose proof (HT _ Ps _ _ Tk) as P1. destruct (hit x s1) as [b s2|e] eqn:Hi; [|discriminate E].
    destruct (HH _ _ _ _ P1 Hi) as [P2 Tx]. destruct (scan ds s2) as [r s3|e] eqn:Sc; [|discriminate E]. injection E as <- <-. destruct (IH _ _ _ P2 Sc) as [P3 [S3 A3]]. split; [exact P3|].
    assert (SI : forall A (a b : list A), sublist a b -> forall z, In z a -> In z b) by (intros A a0 b0 Hs; induction Hs; intros z Hz; [destruct Hz|destruct Hz as [-> | Hz]; [left; reflexivity|right; auto]|right; auto]).
    split; [destruct b; constructor; exact S3|]. intros ND y Hy. apply NoDup_cons_iff in ND. destruct ND as [N1 N2].
    destruct Hy as [<- | Hy].
    + destruct b; [left; split; [left; reflexivity|exact Tx]|right; split; [intros Q; apply N1; eapply SI; eauto|exact Tx]].
    + assert (y <> x) by (intros ->; contradiction). destruct (A3 N2 y Hy) as [[Q1 Q2] | [Q1 Q2]]; [left|right]; (split; [|exact Q2]); destruct b; try exact Q1; [right; exact Q1|].
      intros [Q | Q]; [congruence|contradiction].
Qed.
Lemma sublist_nodup {A} (l m : list A) : sublist l m -> NoDup m -> NoDup l.
Proof.
  intros H. induction H as [|a l m H IH|a l m H IH]; intros ND; [constructor| |apply NoDup_cons_iff in ND; apply IH; apply ND].
  apply NoDup_cons_iff in ND. destruct ND as [N1 N2]. apply NoDup_cons_iff. split; [|auto]. intros Q. apply N1. clear - H Q.
  induction H; [destruct Q|destruct Q as [-> | Q]; [left; reflexivity|right; auto]|right; auto].
Qed.
End W.
