(* Proofs about forests given by their links (class, parent, children, template content of each node number). *)
From Verif Require Import Str SerializerModel SanModel DomModel DomSpec.
From Coq Require Import Lia Relations.
Open Scope nat_scope.

Inductive rooted (P : nat -> option nat) : nat -> Prop :=
| rt_root : forall x, P x = None -> rooted P x
| rt_up : forall x p, P x = Some p -> rooted P p -> rooted P x.
Inductive abv (P : nat -> option nat) : nat -> nat -> Prop :=
| abv_self : forall x, abv P x x
| abv_up : forall a x p, P x = Some p -> abv P a p -> abv P a x.

Record wfv (F : Prop) (N : nat) (K : nat -> kind) (P : nat -> option nat) (C : nat -> list nat) (T : nat -> option nat) : Prop := {
  w_cp : forall x c, In c (C x) -> P c = Some x;
  w_nf : forall x c, In c (C x) -> K c <> KFragment;
  w_pc : forall x c, P c = Some x -> K c <> KFragment -> In c (C x);
  w_nd : forall x, NoDup (C x);
  w_ft : forall x c, P c = Some x -> K c = KFragment -> K x = KTemplate /\ T x <> None;
  w_tf : forall x f, T x = Some f -> K f = KFragment /\ f < N /\ K x = KTemplate;
  w_out : forall x, N <= x -> P x = None /\ C x = [] /\ T x = None;
  w_root : forall x, rooted P x;
  w_full : F -> forall x f, T x = Some f -> P f = Some x }.

Lemma rooted_ext P P' x : (forall y, P y = P' y) -> rooted P x -> rooted P' x.
Proof. intros E H; induction H; [apply rt_root|eapply rt_up; [|eassumption]]; rewrite <- E; assumption. Qed.
Lemma wfv_ext F N K P C T N' K' P' C' T' :
  N = N' -> (forall x, K x = K' x) -> (forall x, P x = P' x) -> (forall x, C x = C' x) -> (forall x, T x = T' x) ->
  wfv F N K P C T -> wfv F N' K' P' C' T'.
Proof.
  intros <- EK EP EC ET [a b c d e f g i j].
  constructor; intros; rewrite <- ?EK, <- ?EP, <- ?EC, <- ?ET in *; eauto.
  eapply rooted_ext; eauto.
Qed.

Lemma out_range F N K P C T : wfv F N K P C T ->
  (forall x c, In c (C x) -> c < N /\ x < N) /\ (forall x c, P c = Some x -> c < N /\ x < N).
Proof.
  intros W.
  assert (B : forall x c, P c = Some x -> c < N /\ x < N).
  { intros x c H. split.
    - destruct (Nat.lt_ge_cases c N) as [|G]; [assumption|]. destruct (w_out _ _ _ _ _ _ W c G) as [Q _]. congruence.
    - destruct (Nat.lt_ge_cases x N) as [|G]; [assumption|]. destruct (w_out _ _ _ _ _ _ W x G) as [_ [Q1 Q2]].
      assert (D : K c = KFragment \/ K c <> KFragment) by (destruct (K c); (left; reflexivity) || (right; discriminate)).
      destruct D as [D | D].
      + destruct (w_ft _ _ _ _ _ _ W _ _ H D) as [_ Q]. congruence.
      + pose proof (w_pc _ _ _ _ _ _ W _ _ H D) as Q. rewrite Q1 in Q. destruct Q. }
  split; [|exact B]. intros x c H. apply B. eapply w_cp; eauto.
Qed.

(* changing the parent of the nodes in D to v *)
Lemma reparent_rooted P (D : nat -> bool) v :
  (forall x, rooted P x) -> (forall s, v = Some s -> forall a, abv P a s -> D a = false) ->
  forall x, rooted (fun y => if D y then v else P y) x.
Proof.
  intros R NA.
  assert (V : forall s, v = Some s -> rooted (fun y => if D y then v else P y) s).
  { intros s Es. pose proof (NA s Es) as H. pose proof (R s) as Rs. clear Es. clear NA. induction Rs as [x Hx | x p Hx Hp IH].
    - apply rt_root. rewrite (H x (abv_self _ _)). exact Hx.
    - eapply rt_up; [rewrite (H x (abv_self _ _)); exact Hx|]. apply IH. intros a Ha. apply H. eapply abv_up; eauto. }
  intros x. pose proof (R x) as Rx. induction Rx as [x Hx | x p Hx Hp IH].
  - destruct (D x) eqn:E.
    + destruct v as [s|]; [eapply rt_up; [rewrite E; reflexivity|]; apply V; reflexivity|apply rt_root; rewrite E; reflexivity].
    + apply rt_root. rewrite E. exact Hx.
  - destruct (D x) eqn:E.
    + destruct v as [s|]; [eapply rt_up; [rewrite E; reflexivity|]; apply V; reflexivity|apply rt_root; rewrite E; reflexivity].
    + eapply rt_up; [rewrite E; exact Hx|exact IH].
Qed.

Definition upd {A} (f : nat -> A) (x : nat) (v : A) : nat -> A := fun y => if y =? x then v else f y.
Lemma upd_same {A} (f : nat -> A) x v : upd f x v x = v.
Proof. unfold upd. rewrite Nat.eqb_refl. reflexivity. Qed.
Lemma upd_other {A} (f : nat -> A) x v y : y <> x -> upd f x v y = f y.
Proof. unfold upd. intros H. destruct (y =? x) eqn:E; [apply Nat.eqb_eq in E; contradiction|reflexivity]. Qed.
Ltac upd_case y x := destruct (Nat.eq_dec y x) as [-> | ]; [rewrite ?upd_same in * | rewrite ?upd_other in * by assumption].

Lemma reparent1_rooted P n v :
  (forall x, rooted P x) -> (forall s, v = Some s -> ~ abv P n s) -> forall x, rooted (upd P n v) x.
Proof.
  intros R NA. apply (reparent_rooted P (fun y => y =? n) v R).
  intros s Es a Ha. destruct (a =? n) eqn:E; [|reflexivity]. apply Nat.eqb_eq in E. rewrite E in Ha. exfalso. exact (NA s Es Ha).
Qed.

(* (a) a fresh node *)
Lemma wfv_alloc F N K P C T k : wfv F N K P C T -> wfv F (S N) (upd K N k) P C T.
Proof.
  intros W. pose proof (out_range _ _ _ _ _ _ W) as [OC OP]. destruct W as [a b c d e f g i j].
  constructor; intros; eauto.
  - rewrite upd_other; [eauto|]. apply OC in H. lia.
  - apply c; auto. rewrite upd_other in H0; auto. apply OP in H. lia.
  - pose proof (OP _ _ H) as [H1 H2]. rewrite upd_other in H0 by lia. rewrite upd_other by lia. eauto.
  - destruct (f _ _ H) as [H1 [H2 H3]]. assert (x < N).
    { destruct (Nat.lt_ge_cases x N) as [|G]; [assumption|]. destruct (g x G) as [_ [_ Q]]. congruence. }
    rewrite !upd_other by lia. auto.
  - apply g. lia.
Qed.

(* (b) detaching a node from its parent *)
Lemma wfv_detach F N K P C T n p l : wfv F N K P C T ->
  P n = Some p -> K n <> KFragment -> NoDup l -> (forall c, In c l <-> In c (C p) /\ c <> n) ->
  wfv F N K (upd P n None) (upd C p l) T.
Proof.
  intros W Hp Hk Hl Hin. pose proof (out_range _ _ _ _ _ _ W) as [OC OP].
  pose proof (OP _ _ Hp) as [On Op]. destruct W as [a b c d e f g i j]. constructor; intros.
  - assert (In c0 (C x) /\ c0 <> n) as [Q1 Q2].
    { upd_case x p; [apply Hin; assumption|]. split; [assumption|]. intros ->. apply a in H. congruence. }
    rewrite upd_other by assumption. auto.
  - assert (In c0 (C x)) as Q1. { upd_case x p; [apply Hin in H; apply H|assumption]. } eauto.
  - upd_case c0 n; [discriminate|]. upd_case x p; [apply Hin; split; auto|auto].
  - upd_case x p; auto.
  - upd_case c0 n; [discriminate|]. eauto.
  - eauto.
  - assert (x <> n) by lia. assert (x <> p) by lia. rewrite !upd_other by assumption. auto.
  - apply reparent1_rooted; [exact i|]. intros s Q. discriminate Q.
  - assert (f0 <> n). { intros ->. destruct (f _ _ H0) as [Q _]. contradiction. }
    rewrite upd_other by assumption. auto.
Qed.
(* (b') dropping the parent link of a fragment *)
Lemma wfv_unlink_fragment F N K P C T n : wfv F N K P C T -> K n = KFragment -> (F -> forall x, T x <> Some n) ->
  wfv F N K (upd P n None) C T.
Proof.
  intros W Hk HF. destruct W as [a b c d e f g i j]. constructor; intros; eauto.
  - rewrite upd_other; [auto|]. intros ->. apply b in H. contradiction.
  - apply c; auto. rewrite upd_other in H; auto. intros ->. contradiction.
  - upd_case c0 n; [discriminate|]. eauto.
  - upd_case x n; [|auto]. apply g in H. tauto.
  - apply reparent1_rooted; [exact i|]. intros s Q. discriminate Q.
  - upd_case f0 n; [exfalso; exact (HF H x H0)|auto].
Qed.

(* (c) attaching a parentless node *)
Lemma wfv_attach F N K P C T n s l : wfv F N K P C T ->
  P n = None -> K n <> KFragment -> n < N -> s < N -> ~ abv P n s ->
  NoDup l -> (forall c, In c l <-> In c (C s) \/ c = n) ->
  wfv F N K (upd P n (Some s)) (upd C s l) T.
Proof.
  intros W Hp Hk Hn Hs Ha Hl Hin. destruct W as [a b c d e f g i j]. constructor; intros.
  - upd_case c0 n.
    + upd_case x s; [reflexivity|]. apply a in H. congruence.
    + upd_case x s; [apply Hin in H; destruct H; [auto|contradiction]|auto].
  - upd_case x s; [apply Hin in H; destruct H as [H | ->]; [eauto|assumption]|eauto].
  - upd_case c0 n; [|upd_case x s; [apply Hin; left; auto|auto]].
    injection H as <-. rewrite upd_same. apply Hin. right; reflexivity.
  - upd_case x s; auto.
  - upd_case c0 n; [contradiction|]. eauto.
  - eauto.
  - assert (x <> n) by lia. assert (x <> s) by lia. rewrite !upd_other by assumption. auto.
  - apply reparent1_rooted; [exact i|]. intros s' Q. injection Q as <-. exact Ha.
  - assert (f0 <> n). { intros ->. destruct (f _ _ H0) as [Q _]. contradiction. }
    rewrite upd_other by assumption. auto.
Qed.

(* (d) moving all children of a fragment *)
Lemma wfv_splice F N K P C T fr s l : wfv F N K P C T ->
  s < N -> s <> fr -> ~ abv P fr s -> NoDup l -> (forall c, In c l <-> In c (C s) \/ In c (C fr)) ->
  wfv F N K (fun y => if existsb (Nat.eqb y) (C fr) then Some s else P y) (upd (upd C fr []) s l) T.
Proof.
  intros W Hs Hne Ha Hl Hin. pose proof (out_range _ _ _ _ _ _ W) as [OC OP].
  assert (EB : forall y, existsb (Nat.eqb y) (C fr) = true <-> In y (C fr)).
  { intros y. rewrite existsb_exists. split; [intros [z [H1 H2]]; apply Nat.eqb_eq in H2; subst; auto|intros H; exists y; rewrite Nat.eqb_refl; auto]. }
  destruct W as [a b c d e f g i j]. constructor; intros.
  - destruct (existsb (Nat.eqb c0) (C fr)) eqn:E.
    + apply EB in E. upd_case x s; [reflexivity|]. upd_case x fr; [destruct H|]. apply a in H. apply a in E. congruence.
    + upd_case x s.
      * apply Hin in H. destruct H as [H | H]; [auto|]. apply EB in H. congruence.
      * upd_case x fr; [destruct H|auto].
  - upd_case x s; [apply Hin in H; destruct H; eauto|]. upd_case x fr; [destruct H|eauto].
  - destruct (existsb (Nat.eqb c0) (C fr)) eqn:E.
    + apply EB in E. injection H as <-. rewrite upd_same. apply Hin. right; assumption.
    + upd_case x s; [apply Hin; left; auto|]. upd_case x fr; [|auto].
      pose proof (c _ _ H H0) as Q. apply EB in Q. congruence.
  - upd_case x s; [assumption|]. upd_case x fr; [constructor|auto].
  - destruct (existsb (Nat.eqb c0) (C fr)) eqn:E; [|eauto]. apply EB in E. apply b in E. contradiction.
  - eauto.
  - destruct (existsb (Nat.eqb x) (C fr)) eqn:E; [apply EB in E; apply OC in E; lia|].
    assert (x <> s) by lia. rewrite upd_other by assumption.
    destruct (g x H) as [G1 [G2 G3]]. upd_case x fr; auto.
  - apply (reparent_rooted P (fun y => existsb (Nat.eqb y) (C fr)) (Some s) i).
    intros s' Q y Hy. injection Q as <-. destruct (existsb (Nat.eqb y) (C fr)) eqn:E; [|reflexivity]. apply EB in E. apply a in E.
    exfalso. apply Ha. clear - Hy E. induction Hy; [eapply abv_up; [exact E|constructor]|eapply abv_up; eauto].
  - destruct (existsb (Nat.eqb f0) (C fr)) eqn:E; [|auto]. apply EB in E. apply b in E. destruct (f _ _ H0) as [Q _]. contradiction.
Qed.

(* (f) a fresh fragment becomes the content of a template *)
Lemma wfv_content F N K P C T t f : wfv F N K P C T ->
  K t = KTemplate -> K f = KFragment -> t < N -> f < N -> P f = None -> C f = [] -> (forall x, T x <> Some f) -> ~ abv P f t ->
  wfv F N K (upd P f (Some t)) C (upd T t (Some f)).
Proof.
  intros W Kt Kf Ht Hf Pf Cf Tf Ha. destruct W as [a b c d e f' g i j]. constructor; intros; eauto.
  - rewrite upd_other; [auto|]. intros ->. apply b in H. contradiction.
  - apply c; auto. rewrite upd_other in H; auto. intros ->. contradiction.
  - upd_case c0 f.
    + injection H as <-. rewrite upd_same. split; [assumption|discriminate].
    + destruct (e _ _ H H0) as [E1 E2]. split; [assumption|]. upd_case x t; [discriminate|assumption].
  - upd_case x t; [injection H as <-; auto|eauto].
  - assert (x <> f) by lia. assert (x <> t) by lia. rewrite !upd_other by assumption. auto.
  - apply reparent1_rooted; [exact i|]. intros s' Q. injection Q as <-. exact Ha.
  - upd_case x t; [injection H0 as <-; apply upd_same|]. upd_case f0 f; [exfalso; exact (Tf x H0)|auto].
Qed.

(* the parent chain is short *)
Fixpoint chain (P : nat -> option nat) (k : nat) (x : nat) : list nat :=
  match k with O => [x] | S k' => x :: match P x with Some p => chain P k' p | None => [] end end.
Inductive depth (P : nat -> option nat) : nat -> nat -> Prop :=
| d0 : forall x, P x = None -> depth P x 0
| dS : forall x p n, P x = Some p -> depth P p n -> depth P x (S n).
Lemma rooted_depth P x : rooted P x -> exists n, depth P x n.
Proof. intros H; induction H; [exists 0; constructor; auto|destruct IHrooted as [n Hn]; exists (S n); econstructor; eauto]. Qed.
Lemma depth_fun P x n m : depth P x n -> depth P x m -> n = m.
Proof. intros H; revert m; induction H; intros m Hm; inversion Hm; subst; try congruence. f_equal. apply IHdepth. congruence. Qed.
Lemma depth_list P x n : depth P x n ->
  exists l, List.length l = S n /\ NoDup l /\ (forall y, In y l -> abv P y x /\ exists m, depth P y m /\ m <= n).
Proof.
  intros H; induction H.
  - exists [x]. repeat split; [constructor; [intros []|constructor]|destruct H0 as [-> | []]; constructor|].
    exists 0. destruct H0 as [<- | []]. split; [constructor; auto|auto].
  - destruct IHdepth as [l [L1 [L2 L3]]]. exists (x :: l). split; [cbn; lia|]. split.
    + constructor; [|assumption]. intros Hin. destruct (L3 _ Hin) as [_ [m [M1 M2]]].
      assert (depth P x (S n)) by (econstructor; eauto). pose proof (depth_fun _ _ _ _ M1 H1). lia.
    + intros y [<- | Hy]; [split; [constructor|exists (S n); split; [econstructor; eauto|lia]]|].
      destruct (L3 _ Hy) as [A [m [M1 M2]]]. split; [eapply abv_up; eauto|exists m; split; [assumption|lia]].
Qed.
Lemma depth_bound P x n N : (forall y, N <= y -> P y = None) -> (forall y p, P y = Some p -> p < N) -> depth P x n -> n <= N.
Proof.
  intros O1 O2 H. destruct n as [|n']; [lia|].
  destruct (depth_list _ _ _ H) as [l [L1 [L2 L3]]].
  assert (x < N). { destruct (Nat.lt_ge_cases x N) as [|G]; [assumption|]. apply O1 in G. inversion H; congruence. }
  assert (I : incl l (seq 0 N)).
  { intros y Hy. apply in_seq. split; [lia|]. cbn. destruct (L3 _ Hy) as [A _]. clear - A H0 O2.
    induction A; [assumption|]. apply IHA. eauto. }
  pose proof (NoDup_incl_length L2 I) as Q. rewrite seq_length in Q. lia.
Qed.

(* consequences *)
Lemma rooted_acyclic P : (forall x, rooted P x) -> forall x, ~ clos_trans nat (fun p c => P c = Some p) x x.
Proof.
  intros R x H.
  assert (D : forall a b, clos_trans nat (fun p c => P c = Some p) a b -> forall n m, depth P a n -> depth P b m -> n < m).
  { clear. intros a b H. induction H; intros n m Hn Hm.
    - inversion Hm; subst; [congruence|]. assert (p = x) by congruence. subst. pose proof (depth_fun _ _ _ _ Hn H1). lia.
    - assert (exists k, depth P y k) as [k Hk].
      { clear - H0 Hm. revert m Hm. induction H0; intros m Hm; [inversion Hm; subst; [congruence|]; replace x with p by congruence; eauto|].
        destruct (IHclos_trans2 _ Hm) as [k Hk]. eauto. }
      pose proof (IHclos_trans1 _ _ Hn Hk). pose proof (IHclos_trans2 _ _ Hk Hm). lia. }
  destruct (rooted_depth _ _ (R x)) as [n Hn]. pose proof (D _ _ H _ _ Hn Hn). lia.
Qed.

Lemma abv_trans P a b c : abv P a b -> abv P b c -> abv P a c.
Proof. intros H1 H2; induction H2; [assumption|eapply abv_up; eauto]. Qed.
