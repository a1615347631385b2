(* PROPERTY C60: the finishing passes of the built-in default policies take out exactly what was recorded *)
From Coq Require Import List Arith Bool Lia.
From Verif Require Import FinishModel FinishSpec FinishProofs FinishProofs2 FinishProofs3.
Import ListNotations.
Open Scope list_scope.

Lemma mem_false x l : ~ In x l -> mem x l = false.
Proof. intros H. destruct (mem x l) eqn:E; [apply mem_In in E; contradiction|reflexivity]. Qed.
Lemma hoist_ids M t : flat_map ids (hoist M t) = filter (fun x => negb (M x)) (ids t).
Proof.
  induction t as [i l IH] using tree_ind'. assert (W : flat_map ids (flat_map (hoist M) l) = filter (fun x => negb (M x)) (flat_map ids l)).
  { induction IH as [|t l Ht _ IHl]; [reflexivity|]. cbn. now rewrite flat_map_app, Ht, IHl, filter_app. }
  cbn. destruct (M i); cbn; [exact W|]. now rewrite app_nil_r, W.
Qed.
Lemma unwrapped_ids M t : ids (unwrapped M t) = root t :: filter (fun x => negb (M x)) (flat_map ids (below t)).
Proof.
  unfold unwrapped. cbn [ids]. f_equal. induction (below t) as [|u l IH]; [reflexivity|]. cbn. now rewrite flat_map_app, hoist_ids, IH, filter_app.
Qed.
Lemma hoist_subs M t s' : In s' (flat_map subtrees (hoist M t)) <-> exists s, In s (subtrees t) /\ M (root s) = false /\ s' = unwrapped M s.
Proof.
  revert s'. induction t as [i l IH] using tree_ind'. intros s'.
  assert (W : In s' (flat_map subtrees (flat_map (hoist M) l)) <-> exists s, In s (flat_map subtrees l) /\ M (root s) = false /\ s' = unwrapped M s).
  { induction IH as [|t l Ht _ IHl]; [split; [intros []|intros (s & [] & _)]|]. cbn [flat_map]. rewrite flat_map_app, in_app_iff, Ht, IHl. split.
    - intros [(s & H)|(s & H)]; exists s; rewrite in_app_iff; tauto.
    - intros (s & H & Q). apply in_app_iff in H as [H|H]; [left|right]; eauto. }
  cbn [hoist subtrees]. destruct (M i) eqn:E.
  - rewrite W. split; intros (s & H & Q); exists s; (split; [|exact Q]); [now right|]. destruct H as [<-|H]; [|exact H]. cbn in Q. destruct Q. congruence.
  - cbn [flat_map]. rewrite app_nil_r. cbn [subtrees]. split.
    + intros [<-|H]; [exists (T i l); split; [now left|now split]|]. apply W in H as (s & H & Q). exists s. split; [now right|exact Q].
    + intros (s & [<-|H] & Q & R); [left; symmetry; exact R|right; apply W; eauto].
Qed.
Lemma unwrapped_subs M t s' : In s' (subtrees (unwrapped M t)) <-> s' = unwrapped M t \/ exists s, In s (flat_map subtrees (below t)) /\ M (root s) = false /\ s' = unwrapped M s.
Proof.
  unfold unwrapped at 1. cbn [subtrees]. assert (W : In s' (flat_map subtrees (flat_map (hoist M) (below t))) <-> exists s, In s (flat_map subtrees (below t)) /\ M (root s) = false /\ s' = unwrapped M s).
  { induction (below t) as [|u l IH]; [split; [intros []|intros (s & [] & _)]|]. cbn [flat_map]. rewrite flat_map_app, in_app_iff, hoist_subs, IH. split.
    - intros [(s & H)|(s & H)]; exists s; rewrite in_app_iff; tauto.
    - intros (s & H & Q). apply in_app_iff in H as [H|H]; [left|right]; eauto. }
  cbn. rewrite W. split; (intros [H|H]; [left; symmetry; exact H|now right]).
Qed.
Lemma in_unwrapped M t x : In x (ids (unwrapped M t)) <-> x = root t \/ (In x (flat_map ids (below t)) /\ M x = false).
Proof. rewrite unwrapped_ids. cbn. rewrite filter_In. rewrite negb_true_iff. split; (intros [H|H]; [left; symmetry; exact H|now right]). Qed.
Lemma root_ids t : In (root t) (ids t). Proof. destruct t. now left. Qed.
Lemma below_ids t x : In x (ids t) <-> x = root t \/ In x (flat_map ids (below t)).
Proof. destruct t. cbn. split; (intros [H|H]; [left; symmetry; exact H|now right]). Qed.
Lemma below_subs t s : In s (subtrees t) <-> s = t \/ In s (flat_map subtrees (below t)).
Proof. destruct t. cbn. split; (intros [H|H]; [left; symmetry; exact H|now right]). Qed.
Lemma unwrapped_inside M t x y : M (root t) = false -> M x = false -> M y = false -> inside (unwrapped M t) x y <-> inside t x y.
Proof.
  intros Mr Mx My. unfold inside. split.
  - intros (s' & H & R & Y). apply unwrapped_subs in H as [->|(s & H & _ & ->)].
    + exists t. split; [apply below_subs; now left|]. split; [exact R|]. apply in_unwrapped in Y. apply below_ids. tauto.
    + exists s. split; [apply below_subs; now right|]. split; [exact R|]. apply in_unwrapped in Y. apply below_ids. tauto.
  - intros (s & H & R & Y). exists (unwrapped M s). split; [|split; [exact R|]].
    + apply unwrapped_subs. apply below_subs in H as [->|H]; [now left|right]. exists s. split; [exact H|]. split; [congruence|reflexivity].
    + apply in_unwrapped. apply below_ids in Y as [->|Y]; [now left|right; now split].
Qed.
Lemma prune_ids D t : NoDup (ids t) -> forall x, In x (flat_map ids (prune D t)) <-> In x (ids t) /\ forall s, In s (subtrees t) -> D (root s) = true -> ~ In x (ids s).
Proof.
  induction t as [i l IH] using tree_ind'. intros N x. cbn [ids] in N. inversion N as [|? ? Ni Nl]; subst.
  assert (W : In x (flat_map ids (flat_map (prune D) l)) <-> In x (flat_map ids l) /\ forall s, In s (flat_map subtrees l) -> D (root s) = true -> ~ In x (ids s)).
  { clear N Ni. induction IH as [|t l Ht _ IHl]; [cbn; tauto|]. cbn [flat_map] in *. apply nodup_app in Nl as (Na & Nb & Dj). rewrite flat_map_app, !in_app_iff, (Ht Na), (IHl Nb).
    assert (Sub : forall u s, In s (subtrees u) -> forall y, In y (ids s) -> In y (ids u)).
    { clear. intros u. induction u as [i l IH] using tree_ind'. rewrite Forall_forall in IH. intros s Hs y Hy. apply below_subs in Hs as [->|Hs]; [exact Hy|]. apply in_flat_map in Hs as (u & Hu & Hs). right. apply in_flat_map. eauto. }
    split.
    - intros [[H1 H2]|[H1 H2]].
      + split; [now left|]. intros s Hs Ds Hx. apply in_app_iff in Hs as [Hs|Hs]; [exact (H2 s Hs Ds Hx)|]. apply (Dj x H1). apply in_flat_map in Hs as (u & Hu & Hs). apply in_flat_map. eauto.
      + split; [now right|]. intros s Hs Ds Hx. apply in_app_iff in Hs as [Hs|Hs]; [|exact (H2 s Hs Ds Hx)]. apply (Dj x); [|exact H1]. eauto.
    - intros [[H|H] Q]; [left|right]; (split; [exact H|]); intros s Hs; apply Q; apply in_app_iff; tauto. }
  cbn [prune]. split.
  - destruct (D i) eqn:E; [intros []|]. cbn [flat_map]. rewrite app_nil_r. cbn [ids]. intros [<-|H].
    + split; [now left|]. intros s Hs Ds Hx. apply below_subs in Hs as [->|Hs]; [cbn in Ds; congruence|]. apply Ni. apply in_flat_map in Hs as (u & Hu & Hs). apply in_flat_map. exists u. split; [exact Hu|]. clear -Hs Hx.
      revert s Hs Hx. induction u as [j l IH] using tree_ind'. rewrite Forall_forall in IH. intros s Hs Hy. apply below_subs in Hs as [->|Hs]; [exact Hy|]. apply in_flat_map in Hs as (u & Hu & Hs). right. apply in_flat_map. eauto.
    + apply W in H as [H Q]. split; [now right|]. intros s Hs Ds. apply below_subs in Hs as [->|Hs]; [cbn in Ds; congruence|exact (Q s Hs Ds)].
  - intros [H Q]. destruct (D i) eqn:E; [exfalso; apply (Q (T i l)); [now left|exact E|exact H]|]. cbn [flat_map]. rewrite app_nil_r. cbn [ids]. destruct H as [<-|H]; [now left|right]. apply W. split; [exact H|]. intros s Hs. apply Q. right. exact Hs.
Qed.
Lemma in_dropped D t x : NoDup (ids t) -> In x (ids (dropped D t)) <-> x = root t \/ (In x (flat_map ids (below t)) /\ forall s, In s (flat_map subtrees (below t)) -> D (root s) = true -> ~ In x (ids s)).
Proof.
  destruct t as [i l]. intros N. unfold dropped. cbn [ids root below]. cbn [ids] in N. inversion N as [|? ? Ni Nl]; subst.
  (* the root counts as one that stays *)
  set (D' := fun y => if y =? i then false else D y). pose proof (prune_ids D' (T i l) N x) as P. cbn [prune] in P. replace (D' i) with false in P by (unfold D'; now rewrite Nat.eqb_refl).
  assert (flat_map (prune D') l = flat_map (prune D) l) as Ep.
  { clear P N. assert (forall u, ~ In i (ids u) -> prune D' u = prune D u) as Q.
    { induction u as [j m IH] using tree_ind'. rewrite Forall_forall in IH. intros H. cbn [prune]. assert (D' j = D j) as ->. { unfold D'. destruct (Nat.eqb_spec j i) as [->|]; [destruct H; now left|reflexivity]. }
      assert (flat_map (prune D') m = flat_map (prune D) m) as ->; [|reflexivity]. assert (~ In i (flat_map ids m)) as H' by (intros ?; apply H; now right). clear H. induction m as [|v m IHm]; [reflexivity|]. cbn in *. rewrite in_app_iff in H'. rewrite IH, IHm; auto. }
    clear Nl. induction l as [|v l IHl]; [reflexivity|]. cbn in *. rewrite in_app_iff in Ni. rewrite Q, IHl; tauto. }
  rewrite Ep in P. cbn [flat_map] in P. rewrite app_nil_r in P. cbn [ids] in P. rewrite P.
  assert (forall s, In s (flat_map subtrees l) -> D' (root s) = D (root s)) as Eq.
  { intros s Hs. unfold D'. destruct (Nat.eqb_spec (root s) i) as [Er|]; [|reflexivity]. exfalso. apply Ni. rewrite <- Er. apply in_flat_map in Hs as (u & Hu & Hs). apply in_flat_map. exists u. split; [exact Hu|]. clear -Hs.
    revert s Hs. induction u as [j m IH] using tree_ind'. rewrite Forall_forall in IH. intros s Hs. apply below_subs in Hs as [->|Hs]; [apply root_ids|]. apply in_flat_map in Hs as (u & Hu & Hs). right. apply in_flat_map. eauto. }
  split.
  - intros [[<-|H] Q]; [now left|]. right. split; [exact H|]. intros s Hs Ds. apply Q; [now right|now rewrite Eq].
  - intros [->|[H Q]].
    + split; [now left|]. intros s Hs Ds Hx. apply below_subs in Hs as [->|Hs]; [unfold D' in Ds; cbn in Ds; rewrite Nat.eqb_refl in Ds; discriminate|]. apply Ni. cbn [below] in Hs. apply in_flat_map in Hs as (u & Hu & Hs). apply in_flat_map. exists u. split; [exact Hu|]. clear -Hs Hx.
      revert s Hs Hx. induction u as [j m IH] using tree_ind'. rewrite Forall_forall in IH. intros s Hs Hy. apply below_subs in Hs as [->|Hs]; [exact Hy|]. apply in_flat_map in Hs as (u & Hu & Hs). right. apply in_flat_map. eauto.
    + split; [now right|]. intros s Hs Ds. apply below_subs in Hs as [->|Hs]; [unfold D' in Ds; cbn in Ds; rewrite Nat.eqb_refl in Ds; discriminate|]. cbn [below] in Hs. apply Q; [exact Hs|now rewrite <- Eq].
Qed.

(* The passes raise nothing, leave the links between the nodes in order, and what they leave is the tree without the dropped elements and all they
   contain, where the recorded elements have been replaced by their children; then the fragment context goes. *)
Theorem C60_finish drops unwraps h t : forest h -> shows h t -> ~ In (root t) unwraps ->
  exists h', finish (root t) None drops unwraps h = Some h' /\ forest h' /\ shows h' (unwrapped (fun x => mem x unwraps) (dropped (fun x => mem x drops) t)).
Proof.
  intros G St Rt. unfold finish.
  assert (exists h1, (match drops with [] => Some h | _ => drop_recorded drops h end) = Some h1 /\ forest h1 /\ shows h1 (dropped (fun x => mem x drops) t)) as (h1 & -> & G1 & S1).
  { destruct drops as [|d ds]; [exists h; split; [reflexivity|split; [exact G|]]; now rewrite dropped_id|]. destruct (drop_recorded_ok (d :: ds) h t G St) as (h1 & E & G1 & _ & _ & _ & S1). exists h1. auto. }
  destruct unwraps as [|n ns]; [exists h1; split; [reflexivity|split; [exact G1|]]; now rewrite unwrapped_id|].
  destruct (unwrap_recorded_ok (n :: ns) h1 _ G1 S1) as (h2 & -> & G2 & S2); [exact Rt|]. exists h2. auto.
Qed.
Print Assumptions C60_finish.
Theorem C60_context c drops unwraps h t : forest h -> shows h t -> ~ In (root t) unwraps -> In c (map root (below t)) -> ~ In c drops -> ~ In c unwraps -> 
  exists h', finish (root t) (Some c) drops unwraps h = Some h' /\ forest h' /\
    shows h' (unwrapped (fun x => x =? c) (unwrapped (fun x => mem x unwraps) (dropped (fun x => mem x drops) t))).
Proof.
  intros G St Rt Hc Nd Nu. destruct (C60_finish drops unwraps h t G St Rt) as (h1 & E & G1 & S1). unfold finish in *. destruct (match drops with [] => _ | _ => _ end) as [hd|]; [|discriminate]. destruct (match unwraps with [] => _ | _ => _ end) as [hu|]; [|discriminate]. injection E as ->.
  eexists. split; [reflexivity|]. set (t1 := unwrapped _ (dropped _ t)) in *.
  assert (H1 : In c (map root (below t1))).
  { unfold t1, unwrapped, dropped. cbn [below]. apply in_map_iff in Hc as ([k l] & Ek & Hk). cbn in Ek. subst k.
    apply in_map_iff. exists (T c (flat_map (hoist (fun x => mem x unwraps)) (flat_map (prune (fun x => mem x drops)) l))). split; [reflexivity|]. apply in_flat_map. exists (T c (flat_map (prune (fun x => mem x drops)) l)).
    split; [apply in_flat_map; exists (T c l); split; [exact Hk|]; cbn; rewrite (mem_false _ _ Nd); now left|]. cbn. rewrite (mem_false _ _ Nu). now left. }
  assert (Hk : kids h1 (root t) = map root (below t1)). { destruct t1 as [i m] eqn:Et. assert (i = root t) as -> by (change i with (root (T i m)); rewrite <- Et; reflexivity). apply shows_T in S1 as [K _]. exact K. }
  assert (Ne : c <> root t). { intros ->. pose proof (no_dup _ _ G St) as N. destruct t as [i m]. cbn in N, Hc. inversion N as [|? ? Ni _]; subst. apply Ni. apply in_map_iff in Hc as (u & <- & Hu). apply in_flat_map. exists u. split; [exact Hu|apply root_ids]. }
  destruct (finish_context_ok (root t) c h1 t1 G1 S1 eq_refl) as [G2 S2]; [now rewrite Hk|exact Ne|]. split; [exact G2|].
  assert (unwrapped (fun x => x =? c) t1 = unwrapped (Nat.eqb c) t1) as ->; [|exact S2]. unfold unwrapped. f_equal. apply flat_map_ext. intros u. induction u as [i m IH] using tree_ind'. cbn. rewrite Nat.eqb_sym. assert (flat_map (hoist (fun x => x =? c)) m = flat_map (hoist (Nat.eqb c)) m) as ->; [|reflexivity]. induction IH as [|v m Hv _ IHm]; [reflexivity|]. cbn. now rewrite Hv, IHm.
Qed.
Print Assumptions C60_context.
(* Read off the tree: in any heap the passes lead to, the nodes below the root are those that were there, are not recorded to be unwrapped and are neither recorded
   to be dropped nor inside a node that is; *)
Theorem C60_nodes drops unwraps h h' t t' : forest h -> shows h t -> ~ In (root t) unwraps -> finish (root t) None drops unwraps h = Some h' -> shows h' t' -> root t' = root t ->
  forall x, x <> root t -> In x (ids t') <-> In x (ids t) /\ ~ In x unwraps /\ forall d, In d drops -> d <> root t -> ~ inside t d x.
Proof.
  intros G St Rt E St' Rt' x Nx. destruct (C60_finish drops unwraps h t G St Rt) as (h2 & E2 & G2 & S2). rewrite E in E2. injection E2 as <-.
  assert (t' = _) as -> by exact (shows_fun _ _ _ St' S2 Rt'). pose proof (no_dup _ _ G St) as N. rewrite in_unwrapped. cbn [root dropped].
  set (td := dropped (fun x => mem x drops) t). assert (B : In x (flat_map ids (below td)) <-> In x (ids td)). { rewrite below_ids. split; [now right|intros [->|H]; [destruct Nx; reflexivity|exact H]]. }
  rewrite B. unfold td. rewrite (in_dropped _ _ _ N). rewrite below_ids.
  assert (Ro : forall s, In s (flat_map subtrees (below t)) -> root s <> root t).
  { clear -N. intros s Hs Er. destruct t as [i m]. cbn in *. inversion N as [|? ? Ni _]; subst. apply Ni. apply in_flat_map in Hs as (u & Hu & Hs). apply in_flat_map. exists u. split; [exact Hu|]. clear -Hs. revert s Hs.
    induction u as [j m IH] using tree_ind'. rewrite Forall_forall in IH. intros s Hs. apply below_subs in Hs as [->|Hs]; [apply root_ids|]. apply in_flat_map in Hs as (u & Hu & Hs). right. apply in_flat_map. eauto. }
  split.
  - intros [->|[[->|[H Q]] Mx]]; [destruct Nx; reflexivity|destruct Nx; reflexivity|]. split; [now right|]. split; [intros Hu; apply mem_In in Hu; congruence|]. intros d Hd Nd (s & Hs & Es & Hx). apply below_subs in Hs as [->|Hs]; [congruence|]. apply (Q s Hs); [apply mem_In; congruence|exact Hx].
  - intros ([->|H] & Hu & Q); [destruct Nx; reflexivity|]. right. split; [|now apply mem_false]. right. split; [exact H|]. intros s Hs Ds Hx. apply mem_In in Ds. apply (Q _ Ds (Ro s Hs)). exists s. split; [apply below_subs; now right|now split].
Qed.
Print Assumptions C60_nodes.
(* their order in the document is the old one, and one is inside another exactly if it was; *)
Theorem C60_order unwraps h h' t t' : forest h -> shows h t -> ~ In (root t) unwraps -> finish (root t) None [] unwraps h = Some h' -> shows h' t' -> root t' = root t ->
  ids t' = root t :: filter (fun x => negb (mem x unwraps)) (flat_map ids (below t)) /\
  forall x y, ~ In x unwraps -> ~ In y unwraps -> inside t' x y <-> inside t x y.
Proof.
  intros G St Rt E St' Rt'. destruct (C60_finish [] unwraps h t G St Rt) as (h2 & E2 & G2 & S2). rewrite E in E2. injection E2 as <-.
  assert (t' = _) as -> by exact (shows_fun _ _ _ St' S2 Rt'). rewrite dropped_id by reflexivity. split; [apply unwrapped_ids|]. intros x y Hx Hy. apply unwrapped_inside; now apply mem_false.
Qed.
Print Assumptions C60_order.
(* and so, if every node is harmless or recorded, what is left below the root is harmless. *)
Theorem C60_harmless (harmless : nat -> Prop) drops unwraps h h' t t' : forest h -> shows h t -> ~ In (root t) unwraps ->
  (forall x, In x (ids t) -> x <> root t -> harmless x \/ In x drops \/ In x unwraps) ->
  finish (root t) None drops unwraps h = Some h' -> shows h' t' -> root t' = root t -> forall x, In x (ids t') -> x <> root t -> harmless x.
Proof.
  intros G St Rt Hh E St' Rt' x Hx Nx. apply (C60_nodes drops unwraps h h' t t' G St Rt E St' Rt' x Nx) in Hx as (Hx & Hu & Hd). destruct (Hh x Hx Nx) as [H|[H|H]]; [exact H| |contradiction].
  exfalso. apply (Hd x H Nx). clear -Hx. assert (exists s, In s (subtrees t) /\ root s = x) as (s & Hs & <-).
  { revert Hx. induction t as [i l IH] using tree_ind'. rewrite Forall_forall in IH. intros [<-|H]; [exists (T i l); split; [now left|reflexivity]|]. apply in_flat_map in H as (u & Hu & H). destruct (IH u Hu H) as (s & Hs & Es). exists s. split; [right; apply in_flat_map; eauto|exact Es]. }
  exists s. split; [exact Hs|]. split; [reflexivity|apply root_ids].
Qed.
Print Assumptions C60_harmless.
(* Unwrapping the nodes one by one and all at once give the same tree, whatever the number of nodes: the threshold does not show. *)
Theorem C60_threshold l h t : forest h -> shows h t -> ~ In (root t) l ->
  exists h1 h2 t', unwrap_each (rev l) h = Some h1 /\ unwrap_batch l h = Some h2 /\ root t' = root t /\ shows h1 t' /\ shows h2 t'.
Proof.
  intros G St Rt. destruct (one_by_one (rev l) h t G St) as (h1 & E1 & G1 & S1); [now rewrite <- in_rev|]. destruct (all_at_once l h t G St Rt) as (h2 & E2 & G2 & S2).
  exists h1, h2, (unwrapped (fun x => mem x l) t). split; [exact E1|]. split; [exact E2|]. split; [reflexivity|]. split; [|exact S2].
  assert (unwrapped (fun x => mem x (rev l)) t = unwrapped (fun x => mem x l) t) as <-; [|exact S1]. unfold unwrapped. f_equal. apply flat_map_ext.
  assert (Em : forall x, mem x (rev l) = mem x l). { intros x. destruct (mem x l) eqn:E; [apply mem_In in E; apply mem_In; now apply -> in_rev|apply mem_false; rewrite <- in_rev; intros H; apply mem_In in H; congruence]. }
  intros u. induction u as [i m IH] using tree_ind'. cbn. rewrite Em. assert (flat_map (hoist (fun x => mem x (rev l))) m = flat_map (hoist (fun x => mem x l)) m) as ->; [|reflexivity]. induction IH as [|v m Hv _ IHm]; [reflexivity|]. cbn. now rewrite Hv, IHm.
Qed.
Print Assumptions C60_threshold.
(* Nor does it matter in which order, or how often, the nodes were recorded. *)
Theorem C60_set drops drops' unwraps unwraps' h h1 h2 t : forest h -> shows h t -> ~ In (root t) unwraps -> (forall x, In x drops <-> In x drops') -> (forall x, In x unwraps <-> In x unwraps') ->
  finish (root t) None drops unwraps h = Some h1 -> finish (root t) None drops' unwraps' h = Some h2 -> exists t', root t' = root t /\ shows h1 t' /\ shows h2 t'.
Proof.
  intros G St Rt Ed Eu E1 E2. destruct (C60_finish drops unwraps h t G St Rt) as (g1 & F1 & _ & S1). destruct (C60_finish drops' unwraps' h t G St) as (g2 & F2 & _ & S2); [now rewrite <- Eu|]. rewrite E1 in F1. rewrite E2 in F2. injection F1 as <-. injection F2 as <-.
  eexists. split; [|split; [exact S1|]]; [reflexivity|].
  assert (Md : forall l l' : list nat, (forall x, In x l <-> In x l') -> forall x, mem x l = mem x l'). { clear. intros l l' H x. destruct (mem x l) eqn:E; [apply mem_In in E; symmetry; now apply mem_In, H|symmetry; apply mem_false; rewrite <- H; intros Q; apply mem_In in Q; congruence]. }
  assert (Hp : forall u, prune (fun x => mem x drops) u = prune (fun x => mem x drops') u).
  { intros u. induction u as [i m IH] using tree_ind'. cbn. rewrite (Md _ _ Ed). assert (flat_map (prune (fun x => mem x drops)) m = flat_map (prune (fun x => mem x drops')) m) as ->; [|reflexivity]. induction IH as [|v m Hv _ IHm]; [reflexivity|]. cbn. now rewrite Hv, IHm. }
  assert (Hh : forall u, hoist (fun x => mem x unwraps) u = hoist (fun x => mem x unwraps') u).
  { intros u. induction u as [i m IH] using tree_ind'. cbn. rewrite (Md _ _ Eu). assert (flat_map (hoist (fun x => mem x unwraps)) m = flat_map (hoist (fun x => mem x unwraps')) m) as ->; [|reflexivity]. induction IH as [|v m Hv _ IHm]; [reflexivity|]. cbn. now rewrite Hv, IHm. }
  unfold unwrapped, dropped in *. cbn [root below] in *. rewrite (flat_map_ext _ _ Hp), (flat_map_ext _ _ Hh). exact S2.
Qed.
Print Assumptions C60_set.

(* a heap from a tree *)
Fixpoint kids_of (t : tree) (x : nat) : option (list nat) := let 'T i l := t in if i =? x then Some (map root l) else
  (fix go l := match l with [] => None | u :: r => match kids_of u x with Some v => Some v | None => go r end end) l.
Fixpoint par_of (p : option nat) (t : tree) (x : nat) : option nat := let 'T i l := t in if i =? x then p else
  (fix go l := match l with [] => None | u :: r => match par_of (Some i) u x with Some v => Some v | None => go r end end) l.
Definition heap_of (t : tree) (n : nat) : heap := Heap (fun x => match kids_of t x with Some l => l | None => [] end) (par_of None t) n.
(* x(a b(c d(e)) f): b and d unwrapped, f dropped, in the small way *)
Definition ex1 : tree := T 0 [T 1 []; T 2 [T 3 []; T 4 [T 5 []]]; T 6 [T 7 []]].
Definition show (fuel : nat) (x : nat) (h : heap) : tree := (fix go n x := match n with O => T x [] | S n => T x (map (go n) (kids h x)) end) fuel x.
Example C60_case : option_map (show 10 0) (finish 0 None [6] [2; 4] (heap_of ex1 8)) = Some (T 0 [T 1 []; T 3 []; T 5 []]).
Proof. vm_compute. reflexivity. Qed.
Example C60_shows : shows (heap_of ex1 8) ex1. Proof. cbn. repeat split. Qed.
Example C60_forest : forest (heap_of ex1 8).
Proof.
  assert (B : forall x, x >= 8 -> kids (heap_of ex1 8) x = [] /\ par (heap_of ex1 8) x = None). { intros x H. do 8 (destruct x as [|x]; [lia|]). split; reflexivity. }
  constructor.
  - intros p c. destruct (le_lt_dec 8 p) as [Hp|Hp]; [rewrite (proj1 (B p Hp))|]; (destruct (le_lt_dec 8 c) as [Hc|Hc]; [rewrite (proj2 (B c Hc))|]).
    + split; [intros []|discriminate].
    + split; [intros []|]. do 8 (destruct c as [|c]; [cbn; intros [=]; lia|]). lia.
    + split; [|discriminate]. do 8 (destruct p as [|p]; [cbn; intuition lia|]). lia.
    + do 8 (destruct p as [|p]; [do 8 (destruct c as [|c]; [cbn; intuition (congruence || discriminate)|]); lia|]). lia.
  - intros p. do 8 (destruct p as [|p]; [cbn; repeat constructor; cbn; intuition lia|]). constructor.
  - intros p c H. destruct (le_lt_dec 8 c) as [Hc|Hc]; [rewrite (proj2 (B c Hc)) in H; discriminate|exact Hc].
  - exists (fun x => match x with 0 => 0 | 1 | 2 | 6 => 1 | 3 | 4 | 7 => 2 | 5 => 3 | _ => 0 end), 4. split.
    + intros p c H. destruct (le_lt_dec 8 c) as [Hc|Hc]; [rewrite (proj2 (B c Hc)) in H; discriminate|]. do 8 (destruct c as [|c]; [cbn in H; first [discriminate|injection H as <-; cbn; lia]|]). lia.
    + intros x. do 8 (destruct x as [|x]; [cbn; lia|]). cbn. lia.
Qed.
(* a chain of 40 recorded elements around a text, beside an ordinary one: the batch *)
Definition chain (n : nat) : tree := nat_rect (fun _ => tree) (T 50 []) (fun k t => T (S k) [t]) n.
Example C60_batch : option_map (show 60 0) (finish 0 None [] (seq 1 40) (heap_of (T 0 [chain 40; T 51 []]) 52)) = Some (T 0 [T 50 []; T 51 []]).
Proof. vm_compute. reflexivity. Qed.
Example C60_fragment : option_map (show 10 0) (finish 0 (Some 2) [6] [4] (heap_of ex1 8)) = Some (T 0 [T 1 []; T 3 []; T 5 []]).
Proof. vm_compute. reflexivity. Qed.
