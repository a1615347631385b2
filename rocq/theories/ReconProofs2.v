(* PROOFS for C64, part 2: the flag *)
From Coq Require Import List Arith Bool Lia.
From Verif Require Import Str StrFacts FinishModel FinishProofs AaaModel AaaSpec AaaProofs ReconModel ReconSpec ReconProofs.
Import ListNotations.
Open Scope list_scope. Open Scope nat_scope.

(* ---------- the order, recursively ---------- *)
Fixpoint until_marker (l : list item) : list item := match l with [] => [] | Marker :: _ => [] | i :: t => i :: until_marker t end.
Lemma until_in : forall l i, In i (until_marker l) <-> exists m r, l = m ++ i :: r /\ ~ In Marker m /\ i <> Marker.
Proof.
  induction l as [|j l IH]; intros i; cbn [until_marker].
  - split; [intros []|]. intros (m & r & E & _). destruct m; discriminate.
  - destruct (match j with Marker => true | _ => false end) eqn:J.
    + destruct j; try discriminate. split; [intros []|]. intros (m & r & E & N & D). destruct m as [|y m]; injection E as <- E; [now destruct D|]. apply N. now left.
    + assert (Q : match j with Marker => [] | _ => j :: until_marker l end = j :: until_marker l) by (destruct j; [discriminate|reflexivity|reflexivity]).
      rewrite Q. split.
      * intros [->|H]; [exists [], l; split; [reflexivity|]; split; [intros []|destruct i; discriminate]|].
        apply IH in H as (m & r & -> & N & D). exists (j :: m), r. split; [reflexivity|]. split; [|exact D]. intros [X|X]; [subst; discriminate|tauto].
      * intros (m & r & E & N & D). destruct m as [|y m]; injection E as <- E; [now left|]. right. apply IH. exists m, r. split; [exact E|]. split; [|exact D]. intros X. apply N. now right.
Qed.
Lemma until_app_in : forall u v i, In i (until_marker (u ++ v)) -> In i u \/ In i (until_marker v).
Proof.
  induction u as [|j u IH]; intros v i H; [now right|]. cbn [app until_marker] in H.
  destruct j; [destruct H| |]; destruct H as [H|H]; [left; now left|apply IH in H as [H|H]; [left; now right|now right]|left; now left|apply IH in H as [H|H]; [left; now right|now right]].
Qed.
Lemma until_incl : forall l i, In i (until_marker l) -> In i l.
Proof. intros l i H. apply until_in in H as (m & r & -> & _). apply in_or_app. right. now left. Qed.
Lemma until_remove : forall u x n k v i, In i (until_marker (u ++ v)) -> In i (until_marker (u ++ El x n k :: v)).
Proof. induction u as [|j u IH]; intros x n k v i H; cbn [app until_marker] in *; [now right|]. destruct j; [destruct H| |]; (destruct H as [H|H]; [now left|right; now apply IH]). Qed.

Fixpoint ord (l : list item) (st : list nat) : Prop :=
  match l with
  | [] => True
  | El x _ _ :: t => (forall y n k, In (El y n k) (until_marker t) -> In y st -> below x y st) /\ ord t st
  | _ :: t => ord t st
  end.
Lemma ord_iff : forall l st, in_order l st <-> ord l st.
Proof.
  induction l as [|i l IH]; intros st.
  - split; [constructor|]. intros _ a x n k m y n' k' r E. destruct a; discriminate.
  - assert (T : in_order (i :: l) st -> in_order l st).
    { intros H a x n k m y n' k' r -> N I. apply (H (i :: a) x n k m y n' k' r); auto. }
    split.
    + intros H. destruct i as [|x n k|]; cbn [ord]; try (apply IH, T, H). split; [|apply IH, T, H].
      intros y n' k' I Y. apply until_in in I as (m & r & -> & N & _). apply (H [] x n k m y n' k' r); auto.
    + intros H a x n k m y n' k' r E N I. destruct a as [|j a]; injection E as -> E.
      * destruct H as [H _]. apply (H y n' k'); [|exact I]. apply until_in. exists m, r. rewrite E. repeat split; auto. discriminate.
      * assert (O : ord l st) by (destruct j; cbn [ord] in H; tauto). apply IH in O. exact (O a x n k m y n' k' r E N I).
Qed.
Lemma ord_prefix : forall a b st, in_order (a ++ b) st -> in_order a st.
Proof. intros a b st H a' x n k m y n' k' r -> N I. apply (H a' x n k m y n' k' (r ++ b)); auto. repeat (rewrite <- app_assoc; cbn [app]). reflexivity. Qed.
Lemma ord_remove : forall a x n k b st, in_order (a ++ El x n k :: b) st -> in_order (a ++ b) st.
Proof.
  intros a x n k b st H. apply ord_iff in H. apply ord_iff. induction a as [|i a IH]; cbn [app ord] in *; [tauto|].
  destruct i as [|z n0 k0|]; auto. destruct H as [H O]. split; [|auto]. intros y n' k' I. apply (H y n' k'). now apply until_remove.
Qed.
Lemma ord_change : forall l st st', (forall x y, In y (nodes l) -> In y st' -> (In y st) /\ (below x y st -> below x y st')) -> in_order l st -> in_order l st'.
Proof.
  intros l st st' H O a x n k m y n' k' r E N I. destruct (H x y) as [H1 H2]; auto.
  - apply nodes_in. exists n', k'. rewrite E. apply in_or_app. right. right. apply in_or_app. right. now left.
  - apply H2. exact (O a x n k m y n' k' r E N H1).
Qed.
Lemma below_ext : forall x y st e, below x y st -> below x y (st ++ e).
Proof. intros x y st e (a & b & c & ->). exists a, b, (c ++ e). repeat (rewrite <- app_assoc; cbn [app]). reflexivity. Qed.
Lemma below_top : forall x y st, In x st -> below x y (st ++ [y]).
Proof. intros x y st H. apply in_split in H as (a & b & ->). exists a, b, []. repeat (rewrite <- app_assoc; cbn [app]). reflexivity. Qed.
Lemma below_in : forall x y st, below x y st -> In x st.
Proof. intros x y st (a & b & c & ->). apply in_or_app. right. now left. Qed.
Lemma below_firstn : forall k x y st, NoDup st -> In y (firstn k st) -> below x y st -> below x y (firstn k st).
Proof.
  intros k x y st ND I (a & b & c & E). apply in_split in I as (p & q & F).
  pose proof (firstn_skipn k st) as FS. rewrite F in FS.
  assert (X : p = a ++ x :: b).
  { rewrite <- FS in ND. rewrite <- FS in E. rewrite <- app_assoc in E. cbn [app] in E.
    replace (a ++ x :: b ++ y :: c) with ((a ++ x :: b) ++ y :: c) in E by (rewrite <- app_assoc; reflexivity).
    rewrite <- app_assoc in ND. cbn [app] in ND.
    clear -ND E. revert ND E. generalize (a ++ x :: b). intros l ND E. revert l ND E. induction p as [|z p IH]; intros l ND E; destruct l as [|w l]; cbn [app] in *.
    - reflexivity.
    - injection E as <- E. exfalso. inversion ND; subst. apply H1. rewrite E. apply in_or_app. right. now left.
    - injection E as -> E. exfalso. inversion ND; subst. apply H1. apply in_or_app. right. now left.
    - injection E as -> E. inversion ND; subst. f_equal. now apply IH. }
  exists a, b, q. rewrite F, X. rewrite <- app_assoc. reflexivity.
Qed.
Lemma firstn_in {A} : forall k (l : list A) x, In x (firstn k l) -> In x l.
Proof. intros k l x H. rewrite <- (firstn_skipn k l). apply in_or_app. now left. Qed.
Lemma ord_firstn : forall k l st, NoDup st -> in_order l st -> in_order l (firstn k st).
Proof. intros k l st ND. apply ord_change. intros x y _ H. split; [now apply firstn_in in H|now apply below_firstn]. Qed.
Lemma ord_push : forall l st x, ~ In x (nodes l) -> in_order l st -> in_order l (st ++ [x]).
Proof.
  intros l st x N. apply ord_change. intros z y Hy H. split; [|intros B; now apply below_ext]. apply in_app_or in H as [H|[<-|[]]]; [exact H|tauto].
Qed.
Lemma nodup_firstn {A} : forall k (l : list A), NoDup l -> NoDup (firstn k l).
Proof.
  induction k as [|k IH]; intros [|x l] H; cbn; try constructor; inversion H; subst; [|auto]. intros X. apply firstn_in in X. tauto.
Qed.

(* ---------- the entries since the last marker ---------- *)
Lemma since_until : forall l x n k, In (El x n k) (since_marker l) <-> In (El x n k) (until_marker l).
Proof.
  induction l as [|i l IH]; intros x n k; [reflexivity|]. destruct i; cbn [since_marker until_marker In]; [reflexivity|now rewrite IH|rewrite IH; intuition discriminate].
Qed.
Lemma all_open_iff : forall l st, all_open l st <-> forall a x n k m, l = a ++ El x n k :: m -> ~ In Marker m -> In x st.
Proof.
  intros l st. unfold all_open. split.
  - intros H a x n k m -> N. apply (H x n k). apply since_until, until_in. exists (rev m), (rev a).
    rewrite rev_app_distr. cbn [rev]. rewrite <- app_assoc. split; [reflexivity|]. split; [|discriminate]. now rewrite <- in_rev.
  - intros H x n k I. apply since_until, until_in in I as (m & r & E & N & _). apply (H (rev r) x n k (rev m)).
    + apply (f_equal (@rev item)) in E. rewrite rev_involutive, rev_app_distr in E. cbn [rev] in E. rewrite <- app_assoc in E. exact E.
    + now rewrite <- in_rev.
Qed.
Lemma all_open_nil : forall st, all_open [] st. Proof. intros st x n k []. Qed.
Lemma all_open_marker : forall l st, all_open (l ++ [Marker]) st. Proof. intros l st x n k. rewrite rev_app_distr. intros []. Qed.
Lemma all_open_every : forall l st, (forall x n k, In (El x n k) l -> In x st) -> all_open l st.
Proof. intros l st H. apply all_open_iff. intros a x n k m -> _. apply (H x n k). apply in_or_app. right. now left. Qed.
Lemma all_open_remove : forall a x n k b st, all_open (a ++ El x n k :: b) st -> all_open (a ++ b) st.
Proof.
  intros a x n k b st H y n' k' I. apply (H y n' k'). apply since_until. apply since_until in I. rewrite rev_app_distr in *. cbn [rev].
  rewrite <- app_assoc. cbn [app]. now apply until_remove.
Qed.
Lemma all_open_stops : forall l st, unmarked l -> all_open l st -> stops l st.
Proof.
  intros l st U H. destruct l as [|i l] using rev_ind; [now left|]. right. destruct i as [|x n k|].
  - left. eauto.
  - right. exists l, x, n, k. split; [reflexivity|]. apply (H x n k). rewrite rev_app_distr. now left.
  - exfalso. specialize (U Bookmark). discriminate U. apply in_or_app. right. now left.
Qed.
Lemma noop : forall s, unmarked (s_list s) -> all_open (s_list s) (s_stack s) -> std_reconstruct s = s.
Proof. intros s U A. unfold std_reconstruct. rewrite std_rewind_stop by now apply all_open_stops. destruct s. reflexivity. Qed.
(* in order and the last one open: all are *)
Lemma stops_all_open : forall l st, in_order l st -> stops l st -> all_open l st.
Proof.
  intros l st O [->|[(a & ->)|(a & x & n & k & -> & I)]]; [apply all_open_nil|apply all_open_marker|].
  apply all_open_iff. intros a' y n' k' m E N. destruct m as [|j m] using rev_ind.
  - apply app_inj_tail in E as [_ E]. injection E as <- _ _. exact I.
  - assert (E' : a ++ [El x n k] = (a' ++ El y n' k' :: m) ++ [j]) by (rewrite <- app_assoc; exact E).
    apply app_inj_tail in E' as [-> <-]. apply (below_in y x). apply (O a' y n' k' m x n k []); [rewrite <- app_assoc; reflexivity| |exact I].
    intros X. apply N. apply in_or_app. now left.
Qed.

(* ---------- what reconstruction leaves ---------- *)
Definition all_el (l : list item) := forall i, In i l -> exists x n k, i = El x n k.
Lemma create_shape : forall todo kept s, all_el todo -> exists news,
  create_all todo kept s = SSt (s_stack s ++ nodes news) (kept ++ news) (s_fresh s + List.length todo) (s_done (create_all todo kept s)) /\
  nodes news = seq (s_fresh s) (List.length todo) /\ all_el news.
Proof.
  induction todo as [|i todo IH]; intros kept s A.
  - exists []. cbn. rewrite !app_nil_r, Nat.add_0_r. split; [reflexivity|]. split; [reflexivity|]. intros i [].
  - destruct (A i (or_introl eq_refl)) as (x & n & k & ->). cbn [create_all].
    set (s1 := SSt (s_stack s ++ [s_fresh s]) [] (S (s_fresh s)) (s_done s ++ [Create (s_fresh s) n k (top (s_stack s))])).
    destruct (IH (kept ++ [El (s_fresh s) n k]) s1) as (news & E & F & G); [intros j Hj; apply A; now right|].
    exists (El (s_fresh s) n k :: news). split; [|split].
    + rewrite E at 1. subst s1. cbn [s_stack s_fresh List.length s_done]. f_equal.
      * cbn [nodes flat_map]. rewrite <- app_assoc. reflexivity.
      * rewrite <- app_assoc. reflexivity.
      * lia.
    + cbn [nodes flat_map app seq List.length]. unfold nodes in F. rewrite F. reflexivity.
    + intros j [<-|Hj]; eauto.
Qed.

Record inv (s : sst) : Prop := {
  i_stack : NoDup (s_stack s); i_list : NoDup (nodes (s_list s));
  i_fresh : forall x, In x (s_stack s) \/ In x (nodes (s_list s)) -> x < s_fresh s;
  i_order : in_order (s_list s) (s_stack s); i_plain : unmarked (s_list s) }.

Lemma rewind_shape : forall l s, s_list s = l -> unmarked l -> exists a b, l = a ++ b /\ all_el b /\ stops a (s_stack s) /\ std_reconstruct s = create_all b a s.
Proof.
  intros l s E U. unfold std_reconstruct. rewrite E.
  assert (W : forall a todo, unmarked a -> exists a' b, a = a' ++ b /\ all_el b /\ stops a' (s_stack s) /\ std_rewind (rev a) todo s = create_all (b ++ todo) a' s).
  { intros a. induction a as [|i a IH] using rev_ind; intros todo Ua.
    - exists [], []. split; [reflexivity|]. split; [intros i []|]. split; [now left|reflexivity].
    - apply unmarked_app in Ua as [Ua Ui]. rewrite rev_app_distr. cbn [rev app].
      assert (STOP : stops (a ++ [i]) (s_stack s) -> std_rewind (i :: rev a) todo s = create_all todo (a ++ [i]) s ->
         exists a' b, a ++ [i] = a' ++ b /\ all_el b /\ stops a' (s_stack s) /\ std_rewind (i :: rev a) todo s = create_all (b ++ todo) a' s).
      { intros H H'. exists (a ++ [i]), []. rewrite app_nil_r. split; [reflexivity|]. split; [intros j []|]. auto. }
      assert (R : forall td, stops (a ++ [i]) (s_stack s) -> std_rewind (i :: rev a) td s = create_all td (a ++ [i]) s).
      { intros td H. rewrite <- std_rewind_stop by exact H. rewrite rev_app_distr. reflexivity. }
      destruct i as [|x n k|].
      + assert (S0 : stops (a ++ [Marker]) (s_stack s)) by (right; left; eauto). apply STOP; auto.
      + cbn [std_rewind]. destruct (existsb (Nat.eqb x) (s_stack s)) eqn:O.
        * assert (S0 : stops (a ++ [El x n k]) (s_stack s)). { right; right. exists a, x, n, k. split; [reflexivity|]. now apply open_node_In. }
          exists (a ++ [El x n k]), []. rewrite app_nil_r. split; [reflexivity|]. split; [intros j []|]. split; [exact S0|].
          cbn [rev app]. rewrite rev_involutive. reflexivity.
        * destruct (IH (El x n k :: todo) Ua) as (a' & b & -> & B & C & D). exists a', (b ++ [El x n k]). rewrite app_assoc. split; [reflexivity|].
          split; [intros j Hj; apply in_app_or in Hj as [Hj|[<-|[]]]; eauto|]. split; [exact C|]. rewrite D, <- app_assoc. reflexivity.
      + exfalso. specialize (Ui Bookmark (or_introl eq_refl)). discriminate. }
  destruct (W l [] U) as (a & b & A & B & C & D). exists a, b. rewrite app_nil_r in D. auto.
Qed.

Lemma nodup_app_intro : forall (a b : list nat), NoDup a -> NoDup b -> (forall x, In x a -> ~ In x b) -> NoDup (a ++ b).
Proof. induction a as [|x a IH]; intros b A B D; cbn; [exact B|]. inversion A; subst. constructor; [|apply IH; auto; intros y Hy; apply D; now right]. intros X. apply in_app_or in X as [X|X]; [tauto|]. apply (D x); [now left|exact X]. Qed.
Lemma nodup_app_left : forall (a b : list nat), NoDup (a ++ b) -> NoDup a.
Proof. induction a as [|x a IH]; intros b H; constructor; inversion H; subst; [|eauto]. intros X. apply H2. apply in_or_app. now left. Qed.


Lemma std_reconstruct_inv : forall s, inv s -> inv (std_reconstruct s) /\ all_open (s_list (std_reconstruct s)) (s_stack (std_reconstruct s)).
Proof.
  intros s I. destruct (rewind_shape (s_list s) s eq_refl (i_plain s I)) as (a & b & E & AB & ST & ->).
  destruct (create_shape b a s AB) as (news & -> & NN & AN). set (f := s_fresh s) in *.
  pose proof (i_order s I) as O. rewrite E in O. apply ord_prefix in O.
  assert (OA : all_open a (s_stack s)) by now apply stops_all_open.
  assert (FR : forall x, In x (s_stack s) \/ In x (nodes a) -> x < f).
  { intros x [H|H]; apply (i_fresh s I); [now left|right]. rewrite E, nodes_app. apply in_or_app. now left. }
  assert (NF : forall x, In x (nodes news) -> f <= x /\ x < f + List.length b) by (intros x H; rewrite NN in H; now apply in_seq in H).
  assert (UN : unmarked news) by (intros i Hi; destruct (AN i Hi) as (x & n & k & ->); reflexivity).
  assert (NM : ~ In Marker news) by (intros X; apply AN in X as (x & n & k & X); discriminate).
  assert (ORD : in_order (a ++ news) (s_stack s ++ nodes news)).
  { assert (G : forall l, (forall i, In i l -> exists x n k, i = El x n k) -> forall st, (forall x, In x st -> ~ In x (nodes l)) -> NoDup (nodes l) -> in_order a st -> all_open a st -> (forall x, In x (nodes a) -> ~ In x (nodes l)) ->
       in_order (a ++ l) (st ++ nodes l)).
    { clear. intros l. induction l as [|i l IH] using rev_ind; intros AL st DS ND O A DA; [cbn; now rewrite !app_nil_r|].
      destruct (AL i) as (x & n & k & ->); [apply in_or_app; right; now left|].
      rewrite nodes_app in *. cbn [nodes flat_map app] in *. rewrite !app_assoc.
      assert (AL' : forall j, In j l -> exists x0 n0 k0, j = El x0 n0 k0) by (intros j Hj; apply AL; apply in_or_app; now left).
      assert (O' : in_order (a ++ l) (st ++ nodes l)).
      { apply IH; auto.
        - intros y Hy X. apply (DS y Hy). apply in_or_app. now left.
        - now apply nodup_app_left in ND.
        - intros y Hy X. apply (DA y Hy). apply in_or_app. now left. }
      assert (NX : ~ In x (nodes (a ++ l))).
      { rewrite nodes_app. intros X. apply in_app_or in X as [X|X].
        - apply (DA x X). apply in_or_app. right. now left.
        - apply NoDup_remove_2 in ND. rewrite app_nil_r in ND. tauto. }
      intros p y n1 k1 m z n2 k2 r Eq NMm Iz.
      destruct r as [|j r] using rev_ind.
      - assert (Eq' : (a ++ l) ++ [El x n k] = (p ++ El y n1 k1 :: m) ++ [El z n2 k2]) by (rewrite Eq; rewrite <- app_assoc; reflexivity).
        apply app_inj_tail in Eq' as [Eq' [= -> -> ->]]. apply below_top.
        assert (Y : In (El y n1 k1) (a ++ l)) by (rewrite Eq'; apply in_or_app; right; now left).
        apply in_app_or in Y as [Y|Y]; [|apply in_or_app; right; apply nodes_in; eauto]. apply in_or_app. left.
        (* y is in a, no marker after *)
        assert (NMl : ~ In Marker l) by (intros X; apply AL' in X as (? & ? & ? & X); discriminate).
        destruct (Nat.le_gt_cases (List.length a) (List.length p)) as [Hle|Hgt].
        + (* then El y is in l: its node is in a and in l *)
          exfalso. assert (Yl : In (El y n1 k1) l).
          { assert (Z : l = skipn (List.length a) (p ++ El y n1 k1 :: m)) by (rewrite <- Eq', skipn_app, skipn_all, Nat.sub_diag; reflexivity).
            rewrite Z, skipn_app. apply in_or_app. right. replace (List.length a - List.length p) with 0 by lia. now left. }
          apply (DA y); [apply nodes_in; eauto|]. apply in_or_app. left. apply nodes_in. eauto.
        + assert (Z : a = p ++ firstn (List.length a - List.length p) (El y n1 k1 :: m)).
          { transitivity (firstn (List.length a) (a ++ l)); [now rewrite firstn_app, firstn_all, Nat.sub_diag, app_nil_r|].
            rewrite Eq', firstn_app. f_equal. apply firstn_all2. lia. }
          destruct (List.length a - List.length p) as [|d] eqn:Ed; [lia|]. cbn [firstn] in Z.
          apply (proj1 (all_open_iff a st) A p y n1 k1 (firstn d m) Z). intros X. apply firstn_in in X. tauto.
      - assert (Eq' : (a ++ l) ++ [El x n k] = (p ++ El y n1 k1 :: m ++ El z n2 k2 :: r) ++ [j]) by (rewrite Eq; repeat (rewrite <- app_assoc; cbn [app]); reflexivity).
        apply app_inj_tail in Eq' as [Eq' <-].
        apply below_ext. apply (O' p y n1 k1 m z n2 k2 r Eq' NMm).
        apply in_app_or in Iz as [Iz|[<-|[]]]; [exact Iz|]. exfalso. apply NX. rewrite Eq'. apply nodes_in. exists n2, k2.
        apply in_or_app. right. right. apply in_or_app. right. now left. }
    apply G; auto.
    - intros x Hx X. apply NF in X. specialize (FR x (or_introl Hx)). lia.
    - rewrite NN. apply seq_NoDup.
    - intros x Hx X. apply NF in X. specialize (FR x (or_intror Hx)). lia. }
  split.
  - constructor; cbn [s_stack s_list s_fresh].
    + apply nodup_app_intro; [apply (i_stack s I)|rewrite NN; apply seq_NoDup|]. intros x Hx X. apply NF in X. specialize (FR x (or_introl Hx)). lia.
    + rewrite nodes_app. apply nodup_app_intro; [|rewrite NN; apply seq_NoDup|].
      * pose proof (i_list s I) as L. rewrite E, nodes_app in L. now apply nodup_app_left in L.
      * intros x Hx X. apply NF in X. specialize (FR x (or_intror Hx)). lia.
    + intros x [H|H]; [apply in_app_or in H as [H|H]|rewrite nodes_app in H; apply in_app_or in H as [H|H]]; try (apply NF in H; lia); [specialize (FR x (or_introl H))|specialize (FR x (or_intror H))]; lia.
    + exact ORD.
    + apply unmarked_app. split; [|exact UN]. pose proof (i_plain s I) as U. rewrite E in U. now apply unmarked_app in U.
  - cbn [s_stack s_list]. destruct news as [|i news] using rev_ind.
    + cbn. rewrite !app_nil_r. exact OA.
    + apply stops_all_open; [exact ORD|]. right; right. destruct (AN i) as (x & n & k & ->); [apply in_or_app; right; now left|].
      exists (a ++ news), x, n, k. rewrite app_assoc. split; [reflexivity|]. rewrite nodes_app. apply in_or_app. right. apply in_or_app. right. now left.
Qed.
