(* PROOFS for C64 *)
From Coq Require Import List Arith Bool Lia.
From Verif Require Import Str StrFacts FinishModel AaaModel AaaSpec AaaProofs ReconModel ReconSpec.
Import ListNotations.
Open Scope list_scope. Open Scope nat_scope.

Lemma open_node_In x l : open_node x l = true <-> In x l.
Proof. unfold open_node. rewrite existsb_exists. split; [intros (y & H & E); apply Nat.eqb_eq in E; now subst|intros H; exists x; split; [exact H|apply Nat.eqb_refl]]. Qed.
Lemma live_none b : live (None :: b) = Marker :: live b. Proof. reflexivity. Qed.

(* ---------- the function against the standard ---------- *)
(* no marker among the slots *)
Definition unbroken (l : list slot) := forall s, In s l -> s <> None.

Lemma create_all_list : forall todo kept a l l' b c, create_all todo kept (SSt a l b c) = create_all todo kept (SSt a l' b c).
Proof. induction todo as [|[|x n k|] todo IH]; intros; cbn [create_all s_stack s_fresh s_done]; [reflexivity|apply IH|reflexivity|apply IH]. Qed.
Lemma advance_ok : forall todo front k s, act s = front ++ todo -> unbroken todo -> List.length todo <= k ->
  exists s', advance k (List.length front) s = Some s' /\ dirty s' = dirty s /\
  seen s' = create_all (live todo) (live front) (seen s).
Proof.
  induction todo as [|sl todo IH]; intros front k s EA U L.
  - exists s. rewrite app_nil_r in EA. split; [|split; [reflexivity|]].
    + destruct k; cbn [advance]; rewrite EA, (proj2 (nth_error_None front (List.length front))) by lia; reflexivity.
    + unfold seen. rewrite EA. reflexivity.
  - destruct k as [|k]; [cbn in L; lia|]. cbn [advance]. rewrite EA, nth_mid.
    destruct sl as [e|]; [|exfalso; apply (U None); [now left|reflexivity]].
    assert (U' : unbroken todo) by (intros x Hx; apply U; now right). cbn in L.
    destruct (e_live e) eqn:EL; cbn [negb].
    + set (x := fresh s). set (e' := Entry x (e_name e) (e_token e) true).
      destruct (IH (front ++ [Some e']) k (RSt (stk s ++ [x]) (put (List.length front) (Some e') (act s)) (dirty s) (S x) (done s ++ [Create x (e_name e) (e_token e) (top (stk s))])))
        as (s' & E & D & V); [|exact U'|lia|].
      * cbn [act]. rewrite EA, put_mid, <- app_assoc. reflexivity.
      * exists s'. rewrite app_length, Nat.add_1_r in E. cbn [List.length] in E. rewrite EA in E. split; [exact E|].
        split; [exact D|]. rewrite V. rewrite live_cons by exact EL. unfold el. cbn [create_all seen s_fresh s_stack s_done stk act fresh done].
        rewrite live_app. fold x. change (live [Some e']) with [El x (e_name e) (e_token e)].
        unfold seen. cbn [stk act fresh done]. apply create_all_list.
    + destruct (IH (front ++ [Some e]) k s) as (s' & E & D & V); [rewrite <- app_assoc; exact EA|exact U'|lia|].
      exists s'. rewrite app_length, Nat.add_1_r in E. cbn [List.length] in E. split; [exact E|]. split; [exact D|].
      rewrite V, live_dead by exact EL. rewrite live_app, live_dead by exact EL. cbn [live flat_map]. now rewrite app_nil_r.
Qed.

Lemma firstn_snoc {A} : forall i (l : list A) x, nth_error l i = Some x -> firstn (S i) l = firstn i l ++ [x].
Proof. induction i as [|i IH]; intros [|y l] x E; cbn in E; try discriminate; [injection E as ->; reflexivity|]. change (y :: firstn (S i) l = y :: firstn i l ++ [x]). now rewrite (IH l x E). Qed.

(* rewinding: what is before and after the point found *)
Lemma rewind_ok : forall n l st, n <= List.length l ->
  exists a b, firstn n l = a ++ b /\ rewind n l st = List.length a /\ unbroken b /\
  (forall x m k, In (El x m k) (live b) -> ~ In x st) /\
  (a = [] \/ (exists a', a = a' ++ [None]) \/ exists a' e, a = a' ++ [Some e] /\ e_live e = true /\ In (e_node e) st).
Proof.
  induction n as [|i IH]; intros l st L.
  - exists [], []. do 2 (split; [reflexivity|]). split; [intros s []|]. split; [intros x m k []|]. now left.
  - cbn [rewind]. destruct (nth_error l i) as [sl|] eqn:E; [|apply nth_error_None in E; lia].
    assert (F : firstn (S i) l = firstn i l ++ [sl]).
    { now apply firstn_snoc. }
    assert (STOP : (sl = None \/ exists e, sl = Some e /\ e_live e = true /\ In (e_node e) st) ->
      exists a b, firstn (S i) l = a ++ b /\ S i = List.length a /\ unbroken b /\
      (forall x m k, In (El x m k) (live b) -> ~ In x st) /\
      (a = [] \/ (exists a', a = a' ++ [None]) \/ exists a' e, a = a' ++ [Some e] /\ e_live e = true /\ In (e_node e) st)).
    { intros H. exists (firstn i l ++ [sl]), []. rewrite app_nil_r. split; [exact F|]. split; [rewrite app_length, firstn_length; cbn; lia|].
      split; [intros s []|]. split; [intros x m k []|]. right. destruct H as [->|(e & -> & A & B)]; eauto 8. }
    destruct sl as [e|]; [|apply STOP; now left].
    destruct (e_live e && open_node (e_node e) st) eqn:O.
    + apply andb_true_iff in O as [O1 O2]. apply open_node_In in O2. apply STOP. right. eauto.
    + destruct (IH l st) as (a & b & A & B & C & D & G); [lia|]. exists a, (b ++ [Some e]). rewrite F, A, <- app_assoc.
      split; [reflexivity|]. split; [exact B|]. split; [intros s Hs; apply in_app_or in Hs as [Hs|[<-|[]]]; [now apply C|discriminate]|]. split; [|exact G].
      intros x m k H. rewrite live_app in H. apply in_app_or in H as [H|H]; [now apply (D x m k)|].
      destruct (e_live e) eqn:EL; [|rewrite live_dead in H by exact EL; destruct H]. rewrite live_cons in H by exact EL. destruct H as [H|[]].
      injection H as <- _ _. intros X. apply open_node_In in X. rewrite X in O. discriminate.
Qed.

Lemma last_index_ok : forall n l, n <= List.length l ->
  match last_index n l with
  | None => live (firstn n l) = []
  | Some i => i < n /\ exists sl, nth_error l i = Some sl /\ (sl = None \/ exists e, sl = Some e /\ e_live e = true) /\
              exists d, firstn n l = firstn i l ++ sl :: d /\ live d = [] /\ unbroken d
  end.
Proof.
  induction n as [|i IH]; intros l L; [reflexivity|]. cbn [last_index].
  destruct (nth_error l i) as [sl|] eqn:E; [|apply nth_error_None in E; lia].
  assert (F : firstn (S i) l = firstn i l ++ [sl]).
  { now apply firstn_snoc. }
  destruct sl as [e|].
  - destruct (e_live e) eqn:EL.
    + split; [lia|]. exists (Some e). split; [exact E|]. split; [eauto|]. exists []. split; [exact F|]. split; [reflexivity|intros s []].
    + specialize (IH l ltac:(lia)). destruct (last_index i l) as [j|].
      * destruct IH as (A & sl & B & C & d & D & G & H). split; [lia|]. exists sl. split; [exact B|]. split; [exact C|].
        exists (d ++ [Some e]). rewrite F, D, <- app_assoc. split; [reflexivity|]. rewrite live_app, live_dead, G by exact EL. split; [reflexivity|].
        intros s Hs. apply in_app_or in Hs as [Hs|[<-|[]]]; [now apply H|discriminate].
      * rewrite F, live_app, live_dead, IH by exact EL. reflexivity.
  - split; [lia|]. exists None. split; [exact E|]. split; [auto|]. exists []. split; [exact F|]. split; [reflexivity|intros s []].
Qed.

(* the standard's rewinding, on lists *)
Lemma std_rewind_split : forall b todo a s,
  (forall i, In i b -> exists x n k, i = El x n k /\ ~ In x (s_stack s)) ->
  std_rewind (rev b ++ a) todo s = std_rewind a (b ++ todo) s.
Proof.
  intros b. induction b as [|i b IH] using rev_ind; intros todo a s H; [reflexivity|].
  rewrite rev_app_distr. cbn [rev app].
  destruct (H i) as (x & n & k & -> & N); [apply in_or_app; right; now left|]. cbn [std_rewind].
  replace (existsb (Nat.eqb x) (s_stack s)) with false.
  2:{ symmetry. apply not_true_is_false. intros X. apply N. now apply open_node_In. }
  rewrite IH; [now rewrite <- app_assoc|]. intros j Hj. apply H. apply in_or_app. now left.
Qed.

Definition stops (a : list item) (stack : list nat) : Prop :=
  a = [] \/ (exists a', a = a' ++ [Marker]) \/ exists a' x n k, a = a' ++ [El x n k] /\ In x stack.
Lemma std_rewind_stop : forall a todo s, stops a (s_stack s) -> std_rewind (rev a) todo s = create_all todo a s.
Proof.
  intros a todo s [->|[(a' & ->)|(a' & x & n & k & -> & H)]].
  - reflexivity.
  - rewrite rev_app_distr. cbn [rev app std_rewind]. rewrite rev_involutive. reflexivity.
  - rewrite rev_app_distr. cbn [rev app std_rewind]. apply open_node_In in H. unfold open_node in H. rewrite H, rev_involutive. reflexivity.
Qed.

Lemma live_items : forall b i, unbroken b -> In i (live b) -> exists x n k, i = El x n k.
Proof.
  intros b i U H. unfold live in H. apply in_flat_map in H as (s & Hs & H). destruct s as [e|]; [|exfalso; now apply (U None)].
  destruct (e_live e); [|destruct H]. destruct H as [<-|[]]. eauto.
Qed.

Lemma create_none : forall a s, create_all [] a s = SSt (s_stack s) a (s_fresh s) (s_done s). Proof. reflexivity. Qed.
Lemma seen_list : forall s, SSt (stk s) (live (act s)) (fresh s) (done s) = seen s. Proof. reflexivity. Qed.

Lemma reconstruct_ok : forall s, exists s', reconstruct s = Some s' /\ dirty s' = false /\ seen s' = std_reconstruct (seen s).
Proof.
  intros s. unfold reconstruct.
  pose proof (last_index_ok (List.length (act s)) (act s) (le_n _)) as LI. rewrite firstn_all in LI.
  destruct (last_index (List.length (act s)) (act s)) as [i|].
  - destruct LI as (Li & sl & En & Hs & d & Ed & Ld & Ud). rewrite En.
    assert (Sv : live (act s) = live (firstn i (act s)) ++ live [sl]).
    { rewrite Ed at 1. change (sl :: d) with ([sl] ++ d). rewrite !live_app, Ld, app_nil_r. reflexivity. }
    destruct Hs as [->|(e & -> & EL)].
    + eexists. split; [reflexivity|]. split; [reflexivity|]. cbn [seen set_dirty stk act fresh done].
      unfold std_reconstruct. cbn [s_list seen]. change (live [None]) with [Marker] in Sv. rewrite Sv.
      rewrite std_rewind_stop by (right; left; eauto). unfold seen. cbn [create_all s_stack s_fresh s_done set_dirty stk act fresh done]. now rewrite Sv.
    + assert (NE : nth_error (act s) i = Some (Some e)) by exact En.
      destruct (rewind_ok (S i) (act s) (stk s)) as (a & b & A & B & C & D & G).
      { apply nth_error_Some. rewrite NE. discriminate. }
      assert (SP : act s = a ++ (b ++ d)).
      { rewrite app_assoc, <- A. assert (F := firstn_snoc i (act s) (Some e) NE).
        rewrite F, <- app_assoc. exact Ed. }
      rewrite B.
      destruct (advance_ok (b ++ d) a (List.length (act s)) s SP) as (s' & E & Dd & V).
      { intros x Hx. apply in_app_or in Hx as [Hx|Hx]; auto. }
      { rewrite SP, app_length. pose proof (f_equal (@List.length _) SP) as LL; rewrite !app_length in LL; rewrite !app_length; lia. }
      rewrite E. eexists. split; [reflexivity|]. split; [reflexivity|].
      change (seen (set_dirty false s')) with (seen s'). rewrite V. rewrite live_app, Ld, app_nil_r.
      unfold std_reconstruct. cbn [s_list seen]. rewrite SP, !live_app, Ld, app_nil_r, rev_app_distr.
      rewrite std_rewind_split.
      * rewrite app_nil_r. rewrite std_rewind_stop.
        -- unfold seen. rewrite SP, !live_app, Ld, app_nil_r. reflexivity.
        -- cbn [s_stack seen]. destruct G as [->|[(a' & ->)|(a' & e' & -> & L' & I')]].
           ++ now left.
           ++ right. left. exists (live a'). rewrite live_app. reflexivity.
           ++ right. right. exists (live a'). rewrite live_app, live_cons by exact L'. unfold el. eauto.
      * intros j Hj. destruct (live_items _ _ C Hj) as (x & n & k & ->). exists x, n, k. split; [reflexivity|]. exact (D _ _ _ Hj).
  - eexists. split; [reflexivity|]. split; [reflexivity|]. unfold std_reconstruct. cbn [s_list seen set_dirty stk act fresh done]. unfold seen. cbn [set_dirty stk act fresh done]. rewrite LI. reflexivity.
Qed.
