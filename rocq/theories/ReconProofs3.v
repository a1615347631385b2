(* PROOFS for C64, part 3: every event *)
From Coq Require Import List Arith Bool Lia.
From Verif Require Import Str StrFacts FinishModel FinishProofs AaaModel AaaSpec AaaProofs ReconModel ReconSpec ReconProofs ReconProofs2.
Import ListNotations.
Open Scope list_scope. Open Scope nat_scope.

Definition good (s : rst) : Prop := inv (seen s) /\ (dirty s = false -> all_open (live (act s)) (stk s)).

Lemma if_dirty_ok : forall s, good s -> exists s', if_dirty s = Some s' /\ seen s' = std_reconstruct (seen s) /\ good s' /\ all_open (live (act s')) (stk s').
Proof.
  intros s [I D]. unfold if_dirty. destruct (dirty s) eqn:E.
  - destruct (reconstruct_ok s) as (s' & R & F & V). exists s'. split; [exact R|]. split; [exact V|].
    destruct (std_reconstruct_inv (seen s) I) as [I' A']. rewrite <- V in I', A'. split; [split; [exact I'|intros _; exact A']|exact A'].
  - exists s. split; [reflexivity|]. split; [symmetry; apply noop; [apply (i_plain _ I)|now apply D]|]. split; [split; [exact I|auto]|now apply D].
Qed.

Lemma refresh_seen : forall s, seen (refresh s) = seen s.
Proof. intros s. unfold refresh. destruct (act s) eqn:E; unfold seen; cbn [set_dirty stk act fresh done]; reflexivity. Qed.
Lemma refresh_good : forall s, inv (seen s) -> good (refresh s).
Proof.
  intros s I. split; [now rewrite refresh_seen|]. intros D.
  assert (A : act (refresh s) = act s) by (unfold refresh; destruct (act s) eqn:E; cbn; auto).
  assert (B : stk (refresh s) = stk s) by (unfold refresh; destruct (act s); reflexivity). rewrite A, B.
  apply all_open_every. intros x n k H. unfold live in H. apply in_flat_map in H as (sl & Hs & H).
  destruct sl as [e|]; [|destruct H as [|[]]; discriminate]. destruct (e_live e) eqn:L; [|destruct H]. destruct H as [H|[]]. injection H as <- _ _.
  unfold refresh in D. destruct (act s) as [|s0 l0] eqn:E; [destruct Hs|]. cbn [set_dirty dirty] in D. rewrite <- E in *.
  destruct (open_node (e_node e) (stk s)) eqn:O; [now apply open_node_In|].
  exfalso. assert (X : existsb (fun sl => match sl with Some e => e_live e && negb (open_node (e_node e) (stk s)) | None => false end) (act s) = true).
  { apply existsb_exists. exists (Some e). split; [exact Hs|]. now rewrite L, O. }
  congruence.
Qed.
Lemma mark_seen : forall s, seen (mark s) = seen s.
Proof. intros s. unfold mark. destruct (act s); reflexivity. Qed.
Lemma mark_dirty : forall s, dirty (mark s) = false -> act s = [].
Proof. intros s. unfold mark. destruct (act s); [reflexivity|discriminate]. Qed.
Lemma act_mark : forall s, act (mark s) = act s.
Proof. intros s. unfold mark. destruct (act s) eqn:E; cbn; auto. Qed.

Lemma clear_live : forall l, live (rev (clear_back (rev l))) = rev (std_clear (rev (live l))).
Proof.
  intros l. induction l as [|s l IH] using rev_ind; [reflexivity|]. rewrite rev_app_distr. cbn [rev app].
  destruct s as [e|]; cbn [clear_back].
  - rewrite IH, live_app. destruct (e_live e) eqn:L.
    + rewrite live_cons by exact L. rewrite rev_app_distr. cbn [live flat_map rev app std_clear el]. reflexivity.
    + rewrite live_dead by exact L. cbn [live flat_map]. now rewrite app_nil_r.
  - rewrite rev_involutive, live_app, rev_app_distr. cbn [live flat_map rev app std_clear]. now rewrite rev_involutive.
Qed.
Lemma std_clear_prefix : forall l, exists r, l = rev (std_clear (rev l)) ++ r.
Proof.
  intros l. induction l as [|i l (r & IH)] using rev_ind; [exists []; reflexivity|]. rewrite rev_app_distr. cbn [rev app].
  destruct i; cbn [std_clear]; [exists [Marker]; now rewrite rev_involutive|exists (r ++ [El x name token])|exists (r ++ [Bookmark])]; rewrite app_assoc, <- IH; reflexivity.
Qed.
Lemma nodes_prefix : forall a r x, In x (nodes a) -> In x (nodes (a ++ r)). Proof. intros. rewrite nodes_app. apply in_or_app. now left. Qed.

Lemma inv_cut : forall k s, inv s -> inv (SSt (firstn k (s_stack s)) (s_list s) (s_fresh s) (s_done s)).
Proof.
  intros k s I. constructor; cbn [s_stack s_list s_fresh].
  - apply nodup_firstn, (i_stack s I).
  - apply (i_list s I).
  - intros x [H|H]; apply (i_fresh s I); [left; now apply firstn_in in H|now right].
  - apply ord_firstn; [apply (i_stack s I)|apply (i_order s I)].
  - apply (i_plain s I).
Qed.
Lemma inv_prefix : forall l r s, s_list s = l ++ r -> inv s -> inv (SSt (s_stack s) l (s_fresh s) (s_done s)).
Proof.
  intros l r s E I. constructor; cbn [s_stack s_list s_fresh].
  - apply (i_stack s I).
  - pose proof (i_list s I) as H. rewrite E, nodes_app in H. now apply nodup_app_left in H.
  - intros x [H|H]; apply (i_fresh s I); [now left|right]. rewrite E. now apply nodes_prefix.
  - pose proof (i_order s I) as H. rewrite E in H. now apply ord_prefix in H.
  - pose proof (i_plain s I) as H. rewrite E in H. now apply unmarked_app in H.
Qed.
Lemma inv_clear : forall s, inv s -> inv (SSt (s_stack s) (rev (std_clear (rev (s_list s)))) (s_fresh s) (s_done s)).
Proof. intros s I. destruct (std_clear_prefix (s_list s)) as (r & E). now apply inv_prefix with (r := r). Qed.

(* removing the entry of a node *)
Lemma without_split : forall x l, NoDup (nodes l) -> In x (nodes l) -> exists a n k b, l = a ++ El x n k :: b /\ without x l = a ++ b.
Proof.
  intros x l ND H. apply nodes_in in H as (n & k & H). apply in_split in H as (a & b & ->). exists a, n, k, b. split; [reflexivity|].
  rewrite nodes_app in ND. change (nodes (El x n k :: b)) with (x :: nodes b) in ND. apply nodup_parts in ND as (_ & _ & A & B & _). now apply without_mid.
Qed.
Lemma inv_without : forall x s, In x (nodes (s_list s)) -> inv s -> inv (SSt (s_stack s) (without x (s_list s)) (s_fresh s) (s_done s)).
Proof.
  intros x s H I. destruct (without_split x (s_list s) (i_list s I) H) as (a & n & k & b & E & ->).
  constructor; cbn [s_stack s_list s_fresh].
  - apply (i_stack s I).
  - pose proof (i_list s I) as L. rewrite E, nodes_app in L. change (nodes (El x n k :: b)) with (x :: nodes b) in L. apply NoDup_remove_1 in L. now rewrite nodes_app.
  - intros y [Hy|Hy]; apply (i_fresh s I); [now left|right]. rewrite E. rewrite nodes_app in *. apply in_app_or in Hy as [Hy|Hy]; apply in_or_app; [now left|right; now right].
  - pose proof (i_order s I) as O. rewrite E in O. now apply ord_remove in O.
  - pose proof (i_plain s I) as U. rewrite E in U. apply unmarked_app in U as [U1 U2]. apply unmarked_app. split; [exact U1|]. intros i Hi. apply U2. now right.
Qed.
Lemma all_open_without : forall x l st, NoDup (nodes l) -> In x (nodes l) -> all_open l st -> all_open (without x l) st.
Proof. intros x l st ND H A. destruct (without_split x l ND H) as (a & n & k & b & E & ->). rewrite E in A. now apply all_open_remove in A. Qed.
Lemma since_nodes : forall l x n k, In (El x n k) (since_marker (rev l)) -> In x (nodes l).
Proof. intros l x n k H. apply since_until, until_incl in H. apply in_rev in H. apply nodes_in. eauto. Qed.
Lemma in_removelast : forall (l : list nat) x, In x l -> x <> top l -> In x (removelast l).
Proof.
  intros l x H N. destruct l as [|y l] using rev_ind; [destruct H|]. rewrite removelast_last. unfold top in N. rewrite last_last in N. apply in_app_or in H as [H|[<-|[]]]; [exact H|congruence].
Qed.
Lemma removelast_firstn : forall (l : list nat), removelast l = firstn (List.length l - 1) l.
Proof. intros l. destruct l as [|y l] using rev_ind; [reflexivity|]. rewrite removelast_last, app_length. cbn [List.length]. rewrite Nat.add_sub, firstn_app, firstn_all, Nat.sub_diag. cbn. now rewrite app_nil_r. Qed.

Lemma fresh_not : forall s, inv s -> ~ In (s_fresh s) (s_stack s) /\ ~ In (s_fresh s) (nodes (s_list s)).
Proof. intros s I. split; intros H; [pose proof (i_fresh s I _ (or_introl H))|pose proof (i_fresh s I _ (or_intror H))]; lia. Qed.
Lemma inv_push : forall s o, inv s -> inv (SSt (s_stack s ++ [s_fresh s]) (s_list s) (S (s_fresh s)) o).
Proof.
  intros s o I. destruct (fresh_not s I) as [F1 F2]. constructor; cbn [s_stack s_list s_fresh].
  - apply nodup_app_intro; [apply (i_stack s I)|constructor; [intros []|constructor]|]. intros x Hx [<-|[]]. tauto.
  - apply (i_list s I).
  - intros x [H|H]; [apply in_app_or in H as [H|[<-|[]]]|]; [|lia|]; assert (x < s_fresh s) by (apply (i_fresh s I); auto); lia.
  - apply ord_push; [exact F2|apply (i_order s I)].
  - apply (i_plain s I).
Qed.
Lemma all_open_grow : forall l st x, all_open l st -> all_open l (st ++ [x]).
Proof. intros l st x H y n k I. apply in_or_app. left. exact (H y n k I). Qed.

Lemma inv_format : forall s name token o, inv s -> all_open (s_list s) (s_stack s) ->
  inv (SSt (s_stack s ++ [s_fresh s]) (s_list s ++ [El (s_fresh s) name token]) (S (s_fresh s)) o) /\
  all_open (s_list s ++ [El (s_fresh s) name token]) (s_stack s ++ [s_fresh s]).
Proof.
  intros s name token o I A. destruct (fresh_not s I) as [F1 F2]. pose proof (inv_push s o I) as P.
  assert (AO : all_open (s_list s ++ [El (s_fresh s) name token]) (s_stack s ++ [s_fresh s])).
  { intros x n k. rewrite rev_app_distr. cbn [rev app since_marker]. intros [H|H]; [injection H as <- _ _; apply in_or_app; right; now left|]. apply in_or_app. left. exact (A x n k H). }
  split; [|exact AO]. constructor; cbn [s_stack s_list s_fresh].
  - apply (i_stack _ P).
  - rewrite nodes_app. cbn [nodes flat_map app]. apply nodup_app_intro; [apply (i_list s I)|constructor; [intros []|constructor]|]. intros x Hx [<-|[]]. tauto.
  - intros x [H|H]; [apply (i_fresh _ P); now left|]. rewrite nodes_app in H. apply in_app_or in H as [H|[<-|[]]]; [|lia]. apply (i_fresh _ P). now right.
  - intros p y n1 k1 m z n2 k2 r Eq NMm Iz. destruct r as [|j r] using rev_ind.
    + assert (Eq' : s_list s ++ [El (s_fresh s) name token] = (p ++ El y n1 k1 :: m) ++ [El z n2 k2]) by (rewrite Eq, <- app_assoc; reflexivity).
      apply app_inj_tail in Eq' as [Eq' [= <- <- <-]]. apply below_top. exact (proj1 (all_open_iff _ _) A p y n1 k1 m Eq' NMm).
    + assert (Eq' : s_list s ++ [El (s_fresh s) name token] = (p ++ El y n1 k1 :: m ++ El z n2 k2 :: r) ++ [j]) by (rewrite Eq; repeat (rewrite <- app_assoc; cbn [app]); reflexivity).
      apply app_inj_tail in Eq' as [Eq' <-]. apply (i_order _ P p y n1 k1 m z n2 k2 r Eq' NMm Iz).
  - apply unmarked_app. split; [apply (i_plain s I)|]. intros i [<-|[]]. reflexivity.
Qed.

Lemma inv_done : forall s o, inv s -> inv (SSt (s_stack s) (s_list s) (s_fresh s) o).
Proof. intros s o I. destruct I. constructor; assumption. Qed.

Lemma step_ok : forall ev s, good s -> can ev (seen s) -> exists s', rstep ev s = Some s' /\ seen s' = sstep ev (seen s) /\ good s'.
Proof.
  intros ev s G C. pose proof G as [I D]. destruct ev as [cap|recon|name token|x|k| | |k|k|subject|used st ac]; cbn [can] in C.
  - (* text *)
    cbn [rstep sstep]. destruct cap.
    + specialize (C eq_refl). rewrite noop by (auto; apply (i_plain _ I)). eexists. split; [reflexivity|]. split; [reflexivity|].
      split; [exact (inv_done _ _ I)|exact D].
    + destruct (if_dirty_ok s G) as (s' & -> & V & [I' D'] & _). eexists. split; [reflexivity|]. rewrite <- V. split; [reflexivity|]. split; [exact (inv_done _ _ I')|exact D'].
  - (* open *)
    cbn [rstep sstep]. destruct recon.
    + destruct (if_dirty_ok s G) as (s' & -> & V & [I' D'] & _). eexists. split; [reflexivity|]. rewrite <- V. split; [reflexivity|].
      split; [exact (inv_push (seen s') _ I')|]. intros E. apply all_open_grow. now apply D'.
    + eexists. split; [reflexivity|]. split; [reflexivity|]. split; [exact (inv_push (seen s) _ I)|]. intros E. apply all_open_grow. now apply D.
  - (* formatting start tag *)
    cbn [rstep sstep]. destruct (if_dirty_ok s G) as (s' & -> & V & [I' D'] & A'). eexists. split; [reflexivity|]. rewrite <- V.
    destruct (inv_format (seen s') name token (done s' ++ [Create (fresh s') name token (top (stk s'))]) I' A') as [I2 A2].
    assert (L : live (act s' ++ [Some (Entry (fresh s') name token true)]) = live (act s') ++ [El (fresh s') name token]) by (rewrite live_app; reflexivity).
    split; [|split].
    + unfold seen. cbn [push note stk act fresh done s_stack s_list s_fresh s_done]. now rewrite L.
    + unfold seen. cbn [push note stk act fresh done]. rewrite L. exact I2.
    + intros _. cbn [push note stk act fresh done]. rewrite L. exact A2.
  - (* Noah's Ark *)
    cbn [rstep sstep]. destruct (live_at x (act s) C) as (a & e & b & E & L & N).
    assert (ND : NoDup (nodes (live (act s)))) by apply (i_list _ I).
    assert (NB : ~ In x (nodes (live a)) /\ ~ In x (nodes (live b))).
    { rewrite E, live_mid, nodes_app in ND by exact L. unfold el in ND. change (nodes (El (e_node e) (e_name e) (e_token e) :: live b)) with (e_node e :: nodes (live b)) in ND. rewrite N in ND. apply nodup_parts in ND. tauto. }
    destruct NB as [NA NB].
    assert (F : find_node x (List.length (act s)) (act s) = Some (List.length a)) by (rewrite E; now apply find_node_hit). rewrite F.
    eexists. split; [reflexivity|].
    assert (W : live (retire (List.length a) (act s)) = without x (live (act s))).
    { rewrite E, retire_live, live_mid by exact L. unfold el. rewrite N. symmetry. now apply without_mid. }
    split; [|split].
    + unfold seen. cbn [stk act fresh done s_stack s_list s_fresh s_done]. now rewrite W.
    + unfold seen. cbn [stk act fresh done]. rewrite W. exact (inv_without x (seen s) C I).
    + cbn [stk act dirty]. intros Df. rewrite W. apply all_open_without; auto.
  - (* close *)
    cbn [rstep sstep]. eexists. split; [reflexivity|].
    assert (Q : seen (cut k (mark s)) = SSt (firstn k (stk s)) (live (act s)) (fresh s) (done s)).
    { pose proof (mark_seen s) as M. unfold seen in *. cbn [cut stk act fresh done] in *. injection M as -> -> -> ->. reflexivity. }
    split; [exact Q|]. split; [rewrite Q; exact (inv_cut k (seen s) I)|]. intros E. cbn [cut dirty act stk] in *. apply mark_dirty in E as E'. rewrite act_mark, E'. apply all_open_nil.
  - (* plain pop *)
    cbn [rstep sstep]. eexists. split; [reflexivity|]. split; [unfold seen; cbn [cut stk act fresh done s_stack s_list s_fresh s_done]; now rewrite <- removelast_firstn|].
    split; [exact (inv_cut _ (seen s) I)|]. intros E y n k H. cbn [cut stk act] in *. rewrite <- removelast_firstn. apply in_removelast; [exact (D E y n k H)|].
    intros ->. apply C. now apply since_nodes in H.
  - (* marker *)
    cbn [rstep sstep]. eexists. split; [reflexivity|].
    assert (L : live (act s ++ [None]) = live (act s) ++ [Marker]) by (rewrite live_app; reflexivity).
    split; [unfold seen; cbn [stk act fresh done s_stack s_list s_fresh s_done]; now rewrite L|].
    split; [|intros _; cbn [act stk]; rewrite L; apply all_open_marker].
    unfold seen. cbn [stk act fresh done]. rewrite L. destruct I as [I1 I2 I3 I4 I5]. constructor; cbn [s_stack s_list s_fresh seen] in *; auto.
    + rewrite nodes_app. cbn. rewrite app_nil_r. exact I2.
    + intros x. rewrite nodes_app. cbn. rewrite app_nil_r. apply I3.
    + intros p y n1 k1 m z n2 k2 r Eq NMm Iz. destruct r as [|j r] using rev_ind.
      * assert (Eq' : live (act s) ++ [Marker] = (p ++ El y n1 k1 :: m) ++ [El z n2 k2]) by (rewrite Eq, <- app_assoc; reflexivity). apply app_inj_tail in Eq' as [_ Eq']. discriminate.
      * assert (Eq' : live (act s) ++ [Marker] = (p ++ El y n1 k1 :: m ++ El z n2 k2 :: r) ++ [j]) by (rewrite Eq; repeat (rewrite <- app_assoc; cbn [app]); reflexivity).
        apply app_inj_tail in Eq' as [Eq' _]. exact (I4 p y n1 k1 m z n2 k2 r Eq' NMm Iz).
    + apply unmarked_app. split; [exact I5|]. intros i [<-|[]]. reflexivity.
  - (* clear *)
    cbn [rstep sstep]. eexists. split; [reflexivity|].
    assert (Q : seen (clear (mark s)) = SSt (stk s) (rev (std_clear (rev (live (act s))))) (fresh s) (done s)).
    { pose proof (mark_seen s) as M. unfold seen in *. cbn [clear stk act fresh done] in *. rewrite clear_live, act_mark. injection M as -> _ -> ->. reflexivity. }
    assert (R : seen (refresh (clear (mark s))) = SSt (stk s) (rev (std_clear (rev (live (act s))))) (fresh s) (done s)) by (rewrite refresh_seen; exact Q).
    assert (GG : good (refresh (clear (mark s)))) by (apply refresh_good; rewrite Q; exact (inv_clear _ I)).
    set (s1 := refresh (clear (mark s))) in *. clearbody s1. destruct GG as [G1 G2].
    assert (R' := R). unfold seen in R'. injection R' as R1 R2 R3 R4.
    split; [unfold seen; cbn [cut stk act fresh done s_stack s_list s_fresh s_done]; now rewrite R1, R2, R3, R4|]. split.
    + exact (inv_cut k _ G1).
    + intros Df x n t H. cbn [cut dirty act stk] in *. specialize (G2 Df x n t H). rewrite R1 in G2 |- *. rewrite R2, rev_involutive in H. exact (C x n t H G2).
  - (* template end *)
    cbn [rstep sstep]. cbv zeta. cbn [cut dirty].
    assert (Q : seen (clear (cut k s)) = SSt (firstn k (stk s)) (rev (std_clear (rev (live (act s))))) (fresh s) (done s)).
    { unfold seen. cbn [clear cut stk act fresh done]. now rewrite clear_live. }
    assert (J : inv (seen (clear (cut k s)))) by (rewrite Q; exact (inv_clear _ (inv_cut k (seen s) I))).
    unfold cut at 1. cbn [dirty]. destruct (dirty s) eqn:E.
    + eexists. split; [reflexivity|]. split; [rewrite refresh_seen; exact Q|now apply refresh_good].
    + eexists. split; [reflexivity|]. split; [exact Q|]. split; [exact J|]. intros _. cbn [clear cut act stk]. rewrite clear_live. exact C.
  - (* formatting end tag, current node *)
    cbn [rstep sstep seen s_stack s_list s_fresh s_done] in *. destruct C as [NE (n & k & C)].
    destruct (last_named_at _ _ _ _ _ C) as (a & e & b & E & L & Ee & U & CL).
    assert (Nn : e_node e = top (stk s)) by (unfold el in Ee; congruence). assert (Nm : str_eqb (e_name e) subject = true) by (unfold el in Ee; injection Ee as _ -> _; exact U).
    assert (F : find_name subject (List.length (act s)) (act s) = Some (List.length a)) by (rewrite E; now apply find_name_hit). rewrite F.
    assert (ND : NoDup (nodes (live (act s)))) by apply (i_list _ I).
    assert (T : In (top (stk s)) (nodes (live (act s)))). { rewrite E, live_mid by exact L. rewrite nodes_app. apply in_or_app. right. left. exact Nn. }
    assert (W : live (retire (List.length a) (act s)) = without (top (stk s)) (live (act s))).
    { rewrite E, retire_live, live_mid by exact L. unfold el. rewrite Nn. symmetry. rewrite E, live_mid, nodes_app in ND by exact L. unfold el in ND.
      change (nodes (El (e_node e) (e_name e) (e_token e) :: live b)) with (e_node e :: nodes (live b)) in ND. rewrite Nn in ND. apply nodup_parts in ND as (_ & _ & A & B & _). now apply without_mid. }
    eexists. split; [reflexivity|]. split; [unfold seen; cbn [stk act fresh done]; now rewrite W|]. split.
    + unfold seen. cbn [stk act fresh done]. rewrite W, removelast_firstn. exact (inv_cut _ _ (inv_without (top (stk s)) (seen s) T I)).
    + cbn [dirty act stk]. intros Df y n' k' H. rewrite W in H.
      assert (Y : In y (stk s)) by (exact (all_open_without (top (stk s)) (live (act s)) (stk s) ND T (D Df) y n' k' H)).
      apply in_removelast; [exact Y|]. intros ->. apply since_nodes in H. destruct (without_split (top (stk s)) (live (act s)) ND T) as (a' & n2 & k2 & b' & E' & W').
      rewrite W' in H. rewrite E', nodes_app in ND. change (nodes (El (top (stk s)) n2 k2 :: b')) with (top (stk s) :: nodes b') in ND. apply NoDup_remove_2 in ND. rewrite nodes_app in H. tauto.
  - (* adoption agency *)
    cbn [rstep sstep]. eexists. split; [reflexivity|]. split; [rewrite refresh_seen; reflexivity|]. apply refresh_good. destruct C as (C1 & C2 & C3 & C4).
    constructor; cbn [seen s_stack s_list s_fresh stk act fresh]; auto. apply live_unmarked.
Qed.

Lemma run_ok : forall evs s, good s -> all_can evs (seen s) -> exists s', rrun evs s = Some s' /\ seen s' = srun evs (seen s).
Proof.
  induction evs as [|ev evs IH]; intros s G C; [exists s; auto|]. destruct C as [C CS]. destruct (step_ok ev s G C) as (s1 & E & V & G1).
  rewrite <- V in CS. destruct (IH s1 G1 CS) as (s2 & E2 & V2). exists s2. cbn [rrun srun]. rewrite E, <- V. auto.
Qed.
Lemma start_good : forall s, at_start s -> good s.
Proof.
  intros s (A & B & C & E). unfold good, seen. rewrite A. split; [|intros _; apply all_open_nil]. constructor; cbn; auto.
  - constructor.
  - intros x [H|[]]. now apply E.
  - intros a x n k m y n' k' r Eq. destruct a; discriminate.
  - intros i [].
Qed.
