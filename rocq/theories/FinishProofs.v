From Coq Require Import List Arith Bool Lia.
From Verif Require Import FinishModel FinishSpec.
Import ListNotations.

Lemma tree_ind' (P : tree -> Prop) : (forall i l, Forall P l -> P (T i l)) -> forall t, P t.
Proof. intros H. fix IH 1. intros [i l]. apply H. induction l; constructor; auto. Qed.

Definition nodes (t : tree) : list (nat * list nat) := (fix go t := let 'T i l := t in (i, map root l) :: flat_map go l) t.
Lemma nodes_T i l : nodes (T i l) = (i, map root l) :: flat_map nodes l.
Proof. reflexivity. Qed.
Lemma shows_all h l : (fix all l := match l with [] => True | x :: r => shows h x /\ all r end) l <-> Forall (shows h) l.
Proof. induction l as [|x r IH]; split; intros H; [constructor|exact Logic.I| |]; [destruct H; constructor; tauto|inversion H; subst; tauto]. Qed.
Lemma shows_T h i l : shows h (T i l) <-> kids h i = map root l /\ Forall (shows h) l.
Proof. cbn [shows]. rewrite shows_all. tauto. Qed.
Lemma shows_nodes h t : shows h t <-> (forall i cs, In (i, cs) (nodes t) -> kids h i = cs).
Proof.
  induction t as [i l IH] using tree_ind'. rewrite shows_T, nodes_T. split.
  - intros [K F] j cs [E|H]; [congruence|]. apply in_flat_map in H as (t & Ht & H). rewrite Forall_forall in IH, F. exact (proj1 (IH t Ht) (F t Ht) j cs H).
  - intros H. split; [apply H; left; reflexivity|]. rewrite Forall_forall in IH |- *. intros t Ht. apply (IH t Ht). intros j cs Hj. apply H. right. apply in_flat_map. eauto.
Qed.
Lemma nodes_ids t x : In x (ids t) <-> exists cs, In (x, cs) (nodes t).
Proof.
  induction t as [i l IH] using tree_ind'. rewrite Forall_forall in IH. rewrite nodes_T. cbn [ids]. split.
  - intros [->|H]; [eexists; left; reflexivity|]. apply in_flat_map in H as (t & Ht & H). apply (IH t Ht) in H as (cs & H). exists cs. right. apply in_flat_map. eauto.
  - intros (cs & [E|H]); [left; congruence|]. right. apply in_flat_map in H as (t & Ht & H). apply in_flat_map. exists t. split; [exact Ht|]. apply (IH t Ht). eauto.
Qed.
Lemma root_in t : In (root t) (ids t).
Proof. destruct t; left; reflexivity. Qed.

Lemma mem_In x l : mem x l = true <-> In x l.
Proof. unfold mem. rewrite existsb_exists. split; [intros (y & H & E); apply Nat.eqb_eq in E; subst; exact H|intros H; exists x; split; [exact H|apply Nat.eqb_refl]]. Qed.
Lemma mem_app x a b : mem x (a ++ b) = mem x a || mem x b.
Proof. apply existsb_app. Qed.

(* primitive updates *)
Lemma upd_same {A} (f : nat -> A) x v : upd f x v x = v.
Proof. unfold upd. now rewrite Nat.eqb_refl. Qed.
Lemma kids_adopt l p h : kids (adopt l p h) = kids h.
Proof. revert h. induction l as [|a l IHl]; intros h; [reflexivity|]. change (adopt (a :: l) p h) with (adopt l p (set_par a (Some p) h)). rewrite IHl. reflexivity. Qed.
Lemma size_adopt l p h : size (adopt l p h) = size h.
Proof. revert h. induction l as [|a l IHl]; intros h; [reflexivity|]. change (adopt (a :: l) p h) with (adopt l p (set_par a (Some p) h)). rewrite IHl. reflexivity. Qed.
Lemma par_adopt l p h x : par (adopt l p h) x = if mem x l then Some p else par h x.
Proof.
  revert h. induction l as [|c l IH]; intros h; [reflexivity|]. change (adopt (c :: l) p h) with (adopt l p (set_par c (Some p) h)). rewrite IH. unfold mem. cbn [existsb set_par par].
  unfold upd. destruct (existsb (Nat.eqb x) l); [now rewrite orb_true_r|]. rewrite orb_false_r. reflexivity.
Qed.
Lemma index_spec x l i : index_of x l = Some i -> exists a b, l = a ++ x :: b /\ List.length a = i /\ ~ In x a.
Proof.
  revert i. induction l as [|y t IH]; intros i; cbn; [discriminate|]. destruct (Nat.eqb_spec y x) as [->|Ne].
  - intros [= <-]. exists [], t. auto.
  - destruct (index_of x t) as [j|]; [|discriminate]. intros [= <-]. destruct (IH j eq_refl) as (a & b & -> & <- & H). exists (y :: a), b. cbn. intuition.
Qed.
Lemma index_some x l : In x l -> exists i, index_of x l = Some i.
Proof. induction l as [|y t IH]; intros H; [destruct H|]. cbn. destruct (Nat.eqb_spec y x); [eauto|]. destruct H as [|H]; [contradiction|]. destruct (IH H) as (i & ->). cbn. eauto. Qed.
Lemma splice_eq a x b new : splice (List.length a) new (a ++ x :: b) = a ++ new ++ b.
Proof.
  unfold splice. rewrite firstn_app, firstn_all, Nat.sub_diag, app_nil_r. f_equal. f_equal.
  induction a; [reflexivity|exact IHa].
Qed.

(* ---- trees found in a forest ---- *)
Section tree_facts.
Variable h : heap.
Hypothesis G : forest h.
Variables (depth : nat -> nat) (bound : nat).
Hypothesis D : forall p c, par h c = Some p -> depth p < depth c.
Hypothesis B : forall x, depth x < bound.

Lemma below_deeper t : shows h t -> forall x, In x (ids t) -> x = root t \/ (depth (root t) < depth x /\ exists p, par h x = Some p /\ In p (ids t)).
Proof.
  induction t as [i l IH] using tree_ind'. rewrite Forall_forall in IH. rewrite shows_T, Forall_forall. intros [K F] x. cbn [ids root]. intros [->|H]; [now left|].
  right. apply in_flat_map in H as (t & Ht & H).
  assert (P : par h (root t) = Some i) by (apply (f_links _ G); rewrite K; now apply in_map).
  destruct (IH t Ht (F t Ht) x H) as [->|(L & p & Hp & Hi)].
  - split; [now apply D|]. exists i. split; [exact P|now left].
  - apply D in P. split; [lia|]. exists p. split; [exact Hp|]. right. apply in_flat_map. eauto.
Qed.
Lemma ids_distinct t : shows h t -> NoDup (ids t).
Proof.
  induction t as [i l IH] using tree_ind'. rewrite Forall_forall in IH. rewrite shows_T, Forall_forall. intros [K F]. cbn [ids].
  assert (Pl : forall t, In t l -> par h (root t) = Some i) by (intros t Ht; apply (f_links _ G); rewrite K; now apply in_map).
  assert (Sep : forall x a b, In a l -> In b l -> In x (ids a) -> In x (ids b) -> root a = root b).
  { assert (W : forall n x a b, depth x < n -> In a l -> In b l -> In x (ids a) -> In x (ids b) -> root a = root b).
    { induction n as [|n IHn]; intros x a b Hn Ha Hb Xa Xb; [lia|].
      destruct (below_deeper a (F a Ha) x Xa) as [Ea|(La & p & Hp & Pa)], (below_deeper b (F b Hb) x Xb) as [Eb|(Lb & q & Hq & Qb)].
      - congruence.
      - rewrite Ea, (Pl a Ha) in Hq. injection Hq as <-. pose proof (D _ _ (Pl b Hb)). destruct (below_deeper b (F b Hb) i Qb) as [E|[L _]]; [rewrite E in *; lia|lia].
      - rewrite Eb, (Pl b Hb) in Hp. injection Hp as <-. pose proof (D _ _ (Pl a Ha)). destruct (below_deeper a (F a Ha) i Pa) as [E|[L _]]; [rewrite E in *; lia|lia].
      - assert (p = q) as <- by congruence. apply (IHn p a b); auto. apply D in Hp. lia. }
    intros x a b. apply (W (S (depth x))). lia. }
  constructor.
  - intros H. apply in_flat_map in H as (t & Ht & H). pose proof (D _ _ (Pl t Ht)). destruct (below_deeper t (F t Ht) i H) as [E|[L _]]; [rewrite <- E in *; lia|lia].
  - pose proof (f_once _ G i) as N1. rewrite K in N1. clear K.
    induction l as [|a l IHl]; [constructor|]. cbn. inversion N1 as [|? ? Na N2]; subst.
    assert (NoDup (flat_map ids l)) as N3. { apply IHl; auto; intros; [apply IH|apply F|apply Pl|apply (Sep x)]; try (right; eassumption); auto. }
    assert (NoDup (ids a)) as N4 by (apply IH; [now left|apply F; now left]).
    clear IHl IH. revert N4. assert (forall x, In x (ids a) -> ~ In x (flat_map ids l)) as Dj.
    { intros x Xa Xl. apply in_flat_map in Xl as (b & Hb & Xb). apply Na. rewrite (Sep x a b); auto; [now apply in_map|now left|now right]. }
    induction (ids a) as [|y ys IHy]; intros N4; [exact N3|]. inversion N4; subst. cbn. constructor.
    + rewrite in_app_iff. intros [?|?]; [contradiction|]. exact (Dj y (or_introl eq_refl) H).
    + apply IHy; auto. intros x Hx. apply Dj. now right.
Qed.
(* every node of a forest has its tree *)
Lemma tree_of n : forall x, bound - depth x < n -> exists t, root t = x /\ shows h t.
Proof.
  induction n as [|n IHn]; intros x Hx; [lia|].
  assert (W : forall l, (forall c, In c l -> par h c = Some x) -> exists ts, map root ts = l /\ Forall (shows h) ts).
  { induction l as [|c l IHl]; intros Hl; [exists []; split; [reflexivity|constructor]|]. destruct (IHl (fun c H => Hl c (or_intror H))) as (ts & E & F).
    pose proof (Hl c (or_introl eq_refl)) as Pc. apply D in Pc. pose proof (B c). destruct (IHn c ltac:(lia)) as (t & Et & St). exists (t :: ts). cbn. split; [congruence|constructor; auto]. }
  destruct (W (kids h x)) as (ts & E & F); [intros c Hc; now apply (f_links _ G)|]. exists (T x ts). split; [reflexivity|]. apply shows_T. split; [now symmetry|exact F].
Qed.
End tree_facts.
Lemma has_tree h : forest h -> forall x, exists t, root t = x /\ shows h t.
Proof. intros G x. destruct (f_depth _ G) as (d & b & D & B). exact (tree_of h G d b D B (S (b - d x)) x ltac:(lia)). Qed.
Lemma no_dup h t : forest h -> shows h t -> NoDup (ids t).
Proof. intros G. destruct (f_depth _ G) as (d & b & D & B). exact (ids_distinct h G d D t). Qed.

(* ---- rewriting the children of one node ---- *)
Fixpoint at_node (p : nat) (f : list tree -> list tree) (t : tree) : tree := let 'T i l := t in T i (if i =? p then f l else map (at_node p f) l).
Lemma at_root p f t : root (at_node p f t) = root t.
Proof. now destruct t. Qed.
(* f only leaves out levels *)
Definition reduces (f : list tree -> list tree) : Prop := forall l x, In x (flat_map nodes (f l)) -> In x (flat_map nodes l).
Definition subs := fix sub t := let 'T i l := t in t :: flat_map sub l.
Lemma subs_shows h t s : shows h t -> In s (subs t) -> shows h s.
Proof.
  induction t as [j l IH] using tree_ind'. rewrite Forall_forall in IH. intros H. cbn [subs]. intros [<-|Hs]; [exact H|]. apply in_flat_map in Hs as (t & Ht & Hs). apply (IH t Ht); [|exact Hs].
  apply shows_T in H as [_ F]. rewrite Forall_forall in F. auto.
Qed.
Lemma not_below_itself h p l : forest h -> shows h (T p l) -> ~ In p (flat_map ids l).
Proof. intros G St. pose proof (no_dup h _ G St) as N. cbn [ids] in N. now inversion N. Qed.
Lemma at_nodes h p f t i cs : forest h -> shows h t -> reduces f -> In (i, cs) (nodes (at_node p f t)) ->
  (i = p /\ exists l, shows h (T p l) /\ cs = map root (f l)) \/ (i <> p /\ In (i, cs) (nodes t)).
Proof.
  intros G St R. revert St. induction t as [j l IH] using tree_ind'. rewrite Forall_forall in IH. intros St. cbn [at_node]. rewrite !nodes_T. destruct (Nat.eqb_spec j p) as [->|Ne].
  - intros [E|H]; [left; injection E as <- <-; split; [reflexivity|]; exists l; split; [exact St|reflexivity]|]. right. apply R in H. split; [|now right].
    intros ->. apply (not_below_itself h p l G St). apply in_flat_map in H as (t & Ht & H). apply in_flat_map. exists t. split; [exact Ht|]. apply nodes_ids. eauto.
  - rewrite map_map. rewrite (map_ext _ root (at_root p f)). apply shows_T in St as [_ F]. rewrite Forall_forall in F.
    intros [E|H]; [right; split; [congruence|now left]|]. apply in_flat_map in H as (t & Ht & H). apply in_map_iff in Ht as (t0 & <- & Ht).
    destruct (IH t0 Ht (F t0 Ht) H) as [L|[Hn H0]]; [now left|right; split; [exact Hn|right; apply in_flat_map; eauto]].
Qed.
Lemma shows_fun h : forall a b, shows h a -> shows h b -> root a = root b -> a = b.
Proof.
  induction a as [i l IH] using tree_ind'. intros [j l'] Ha Hb E. cbn in E. subst j. f_equal. apply shows_T in Ha as [Ka Fa], Hb as [Kb Fb]. rewrite Ka in Kb. clear Ka.
  revert l' Kb Fb. induction l as [|x l IHl]; intros [|y l'] Kb Fb; try discriminate; [reflexivity|]. injection Kb as E1 E2. inversion Fa; inversion Fb; inversion IH; subst. f_equal; auto.
Qed.
Lemma in_tree_parent t x : In x (ids t) -> x = root t \/ exists i cs, In (i, cs) (nodes t) /\ In x cs.
Proof.
  induction t as [j l IH] using tree_ind'. rewrite Forall_forall in IH. cbn [ids root]. rewrite nodes_T. intros [->|H]; [now left|]. right. apply in_flat_map in H as (t & Ht & H).
  destruct (IH t Ht H) as [->|(i & cs & H1 & H2)]; [exists j, (map root l); split; [now left|now apply in_map]|]. exists i, cs. split; [right; apply in_flat_map; eauto|exact H2].
Qed.

(* one step: the children of p become f of them, the nodes in E go *)
Record step (h h' : heap) (p : nat) (f : list tree -> list tree) (E : nat -> bool) : Prop := Step {
  st_size : size h' = size h;
  st_p : forall l, shows h (T p l) -> kids h' p = map root (f l);
  st_kids : forall x, x <> p -> E x = false -> kids h' x = kids h x;
  st_gone : forall x, E x = true -> kids h' x = [] /\ par h' x = None;
  st_par : forall x, E x = false -> In x (kids h' p) \/ par h' x = par h x;
  st_new : forall x, In x (kids h' p) -> E x = false /\ par h' x = Some p;
  st_lost : forall x, par h x = Some p -> E x = false -> In x (kids h' p);
  st_E : forall x q, E x = true -> par h x = Some q -> q = p \/ E q = true;
  st_orphan : forall x q, E q = true -> par h x = Some q -> E x = true \/ In x (kids h' p);
  st_from : forall x, In x (kids h' p) -> par h x = Some p \/ exists q, E q = true /\ par h x = Some q
}.
Section step_facts.
Variables (h h' : heap) (p : nat) (f : list tree -> list tree) (E : nat -> bool).
Hypothesis G : forest h.
Hypothesis R : reduces f.
Hypothesis Z : step h h' p f E.
Hypothesis Ep : E p = false.
Hypothesis E_below : forall d, (forall q c, par h c = Some q -> d q < d c) -> forall x, E x = true -> d p < d x.
Hypothesis Once : NoDup (kids h' p).
Lemma step_forest : forest h'.
Proof.
  constructor.
  - intros q c. destruct (E q) eqn:Eq.
    + destruct (st_gone _ _ _ _ _ Z q Eq) as [Kq Pq]. rewrite Kq. split; [intros []|]. intros Hc. exfalso. destruct (E c) eqn:Ec; [rewrite (proj2 (st_gone _ _ _ _ _ Z c Ec)) in Hc; discriminate|].
      destruct (st_par _ _ _ _ _ Z c Ec) as [Hi|Hp]; [rewrite (proj2 (st_new _ _ _ _ _ Z c Hi)) in Hc; congruence|]. rewrite Hp in Hc.
      destruct (st_orphan _ _ _ _ _ Z c q Eq Hc) as [?|Hi]; [congruence|]. destruct (st_new _ _ _ _ _ Z c Hi) as [_ Hn]. congruence.
    + destruct (Nat.eq_dec q p) as [->|Nq].
      * split; [intros H; now apply (st_new _ _ _ _ _ Z)|]. intros Hc. destruct (E c) eqn:Ec; [rewrite (proj2 (st_gone _ _ _ _ _ Z c Ec)) in Hc; discriminate|].
        destruct (st_par _ _ _ _ _ Z c Ec) as [Hi|Hp]; [exact Hi|]. rewrite Hp in Hc. now apply (st_lost _ _ _ _ _ Z).
      * rewrite (st_kids _ _ _ _ _ Z q Nq Eq). rewrite (f_links _ G). split.
        -- intros Hc. destruct (E c) eqn:Ec; [destruct (st_E _ _ _ _ _ Z c q Ec Hc); congruence|]. destruct (st_par _ _ _ _ _ Z c Ec) as [Hi|Hp]; [|congruence].
           exfalso. destruct (st_from _ _ _ _ _ Z c Hi) as [?|(q' & ? & ?)]; congruence.
        -- intros Hc. destruct (E c) eqn:Ec; [rewrite (proj2 (st_gone _ _ _ _ _ Z c Ec)) in Hc; discriminate|]. destruct (st_par _ _ _ _ _ Z c Ec) as [Hi|Hp]; [|congruence].
           rewrite (proj2 (st_new _ _ _ _ _ Z c Hi)) in Hc. congruence.
  - intros q. destruct (Nat.eq_dec q p) as [->|Nq]; [exact Once|]. destruct (E q) eqn:Eq; [rewrite (proj1 (st_gone _ _ _ _ _ Z q Eq)); constructor|]. rewrite (st_kids _ _ _ _ _ Z q Nq Eq). apply (f_once _ G).
  - intros q c Hc. rewrite (st_size _ _ _ _ _ Z). destruct (E c) eqn:Ec; [rewrite (proj2 (st_gone _ _ _ _ _ Z c Ec)) in Hc; discriminate|].
    destruct (st_par _ _ _ _ _ Z c Ec) as [Hi|Hp]; [|rewrite Hp in Hc; exact (f_size _ G _ _ Hc)]. destruct (st_from _ _ _ _ _ Z c Hi) as [Hf|(q' & _ & Hf)]; exact (f_size _ G _ _ Hf).
  - destruct (f_depth _ G) as (d & b & Hd & Hb). exists d, b. split; [|exact Hb]. intros q c Hc. destruct (E c) eqn:Ec; [rewrite (proj2 (st_gone _ _ _ _ _ Z c Ec)) in Hc; discriminate|].
    destruct (st_par _ _ _ _ _ Z c Ec) as [Hi|Hp]; [|rewrite Hp in Hc; now apply Hd]. rewrite (proj2 (st_new _ _ _ _ _ Z c Hi)) in Hc. injection Hc as <-.
    destruct (st_from _ _ _ _ _ Z c Hi) as [Hf|(q' & Eq' & Hf)]; [now apply Hd|]. apply Hd in Hf. pose proof (E_below d Hd q' Eq'). lia.
Qed.
Lemma step_not_gone t : shows h t -> E (root t) = false -> forall x, In x (ids (at_node p f t)) -> E x = false.
Proof.
  intros St Rt. destruct (f_depth _ G) as (d & b & Hd & Hb).
  assert (W : forall n x, d x < n -> In x (ids (at_node p f t)) -> E x = false).
  { induction n as [|n IH]; intros x Hn Hx; [lia|]. destruct (E x) eqn:Ex; [|reflexivity]. exfalso.
    destruct (in_tree_parent _ _ Hx) as [->|(i & cs & Hi & Hc)]; [rewrite at_root in Ex; congruence|].
    destruct (at_nodes h p f t i cs G St R Hi) as [(-> & l & Hl & ->)|[Hne Ho]].
    - rewrite <- (st_p _ _ _ _ _ Z l Hl) in Hc. destruct (st_new _ _ _ _ _ Z x Hc). congruence.
    - rewrite <- (proj1 (shows_nodes h t) St i cs Ho) in Hc. apply (f_links _ G) in Hc. destruct (st_E _ _ _ _ _ Z x i Ex Hc) as [?|Ei]; [contradiction|].
      apply Hd in Hc. rewrite IH in Ei; [discriminate|lia|]. apply nodes_ids. eauto. }
  intros x. apply (W (S (d x))). lia.
Qed.
Lemma step_shows t : shows h t -> E (root t) = false -> shows h' (at_node p f t).
Proof.
  intros St Rt. apply shows_nodes. intros i cs Hi. assert (E i = false) as Ei by (apply (step_not_gone t St Rt); apply nodes_ids; eauto).
  destruct (at_nodes h p f t i cs G St R Hi) as [(-> & l & Hl & ->)|[Hn Ho]]; [exact (st_p _ _ _ _ _ Z l Hl)|].
  rewrite (st_kids _ _ _ _ _ Z i Hn Ei). exact (proj1 (shows_nodes h t) St _ _ Ho).
Qed.
End step_facts.

(* ---- dropping one node ---- *)
Definition leave_out (n : nat) (l : list tree) : list tree := filter (fun t => negb (root t =? n)) l.
Lemma leave_out_reduces n : reduces (leave_out n).
Proof. intros l x H. apply in_flat_map in H as (t & Ht & H). apply filter_In in Ht as [Ht _]. apply in_flat_map. eauto. Qed.
Lemma leave_out_roots n l : map root (leave_out n l) = filter (fun x => negb (x =? n)) (map root l).
Proof. unfold leave_out. induction l as [|t l IH]; [reflexivity|]. cbn. destruct (negb (root t =? n)); cbn; rewrite IH; reflexivity. Qed.
Lemma cut_filter a n b : NoDup (a ++ n :: b) -> a ++ b = filter (fun x => negb (x =? n)) (a ++ n :: b).
Proof.
  intros N. rewrite filter_app. cbn. rewrite Nat.eqb_refl. cbn. apply NoDup_remove_2 in N. rewrite in_app_iff in N.
  assert (K : forall l, ~ In n l -> filter (fun x => negb (x =? n)) l = l). { induction l as [|y l IH]; intros H; [reflexivity|]. cbn. destruct (Nat.eqb_spec y n) as [->|]; [destruct H; now left|]. cbn. f_equal. apply IH. intros ?. apply H. now right. }
  rewrite !K; tauto.
Qed.
Lemma filter_out_In n l x : In x (filter (fun x => negb (x =? n)) l) <-> In x l /\ x <> n.
Proof. rewrite filter_In. destruct (Nat.eqb_spec x n); cbn; intuition congruence. Qed.
Lemma remove_child_ok h p n : forest h -> par h n = Some p -> exists h', remove_child p n h = Some h' /\ forest h' /\
  (forall t, shows h t -> shows h' (at_node p (leave_out n) t)) /\ par h' n = None /\ (forall x, x <> n -> par h' x = par h x) /\ size h' = size h.
Proof.
  intros G Hp. pose proof (proj2 (f_links _ G p n) Hp) as Hi. destruct (index_some _ _ Hi) as (i & Ei). unfold remove_child. rewrite Ei. eexists. split; [reflexivity|].
  destruct (index_spec _ _ _ Ei) as (a & b & Ek & <- & _). rewrite Ek, splice_eq. cbn [app].
  pose proof (f_once _ G p) as N. rewrite Ek in N. rewrite (cut_filter a n b N), <- Ek. clear N Ei Ek a b.
  set (h' := set_par n None (set_kids p (filter (fun x => negb (x =? n)) (kids h p)) h)).
  assert (K : forall x, kids h' x = if x =? p then filter (fun x => negb (x =? n)) (kids h p) else kids h x) by reflexivity.
  assert (P : forall x, par h' x = if x =? n then None else par h x) by reflexivity.
  split; [|split; [|split; [rewrite P, Nat.eqb_refl; reflexivity|split; [intros x Hx; rewrite P; destruct (Nat.eqb_spec x n); congruence|reflexivity]]]].
  - constructor.
    + intros q c. rewrite K, P. destruct (Nat.eqb_spec q p) as [->|Nq]; destruct (Nat.eqb_spec c n) as [->|Nc].
      * rewrite filter_out_In. intuition congruence.
      * rewrite filter_out_In, (f_links _ G). tauto.
      * rewrite (f_links _ G). rewrite Hp. split; congruence.
      * apply (f_links _ G).
    + intros q. rewrite K. destruct (q =? p); [apply NoDup_filter|]; apply (f_once _ G).
    + intros q c. rewrite P. destruct (c =? n); [discriminate|]. apply (f_size _ G).
    + destruct (f_depth _ G) as (d & m & Hd & Hm). exists d, m. split; [|exact Hm]. intros q c. rewrite P. destruct (c =? n); [discriminate|]. apply Hd.
  - intros t St. apply shows_nodes. intros j cs Hj. destruct (at_nodes h p (leave_out n) t j cs G St (leave_out_reduces n) Hj) as [(-> & l & Hl & ->)|[Hne Ho]].
    + rewrite K, Nat.eqb_refl, leave_out_roots. apply shows_T in Hl as [-> _]. reflexivity.
    + rewrite K. destruct (Nat.eqb_spec j p); [contradiction|]. exact (proj1 (shows_nodes h t) St _ _ Ho).
Qed.
Lemma prune_at D p n t : D n = true -> prune D (at_node p (leave_out n) t) = prune D t.
Proof.
  unfold leave_out.  intros Dn. induction t as [i l IH] using tree_ind'. cbn [at_node prune]. destruct (D i); [reflexivity|]. f_equal. f_equal. destruct (i =? p).
  - clear IH. induction l as [|t l IHl]; [reflexivity|]. cbn. destruct (Nat.eqb_spec (root t) n) as [E|E]; cbn; [|now rewrite IHl]. rewrite IHl. destruct t as [j m]. cbn in E |- *. subst j. now rewrite Dn.
  - induction IH as [|t l H _ IHl]; [reflexivity|]. cbn. now rewrite H, IHl.
Qed.
Lemma dropped_at D p n t : D n = true -> dropped D (at_node p (leave_out n) t) = dropped D t.
Proof.
  intros Dn. unfold dropped. destruct t as [i l]. pose proof (fun t => prune_at D p n t Dn) as PA. unfold leave_out in *. cbn [at_node root below]. f_equal. destruct (i =? p).
  - induction l as [|t l IHl]; [reflexivity|]. cbn. destruct (Nat.eqb_spec (root t) n) as [E|E]; cbn; [|now rewrite IHl]. rewrite IHl. destruct t as [j m]. cbn in E |- *. subst j. now rewrite Dn.
  - induction l as [|t l IHl]; [reflexivity|]. cbn. now rewrite PA, IHl.
Qed.
Lemma prune_id D t : (forall x, In x (ids t) -> D x = false) -> prune D t = [t].
Proof.
  induction t as [i l IH] using tree_ind'. intros H. cbn. rewrite (H i (or_introl eq_refl)). f_equal. f_equal. cbn [ids] in H. assert (forall x, In x (flat_map ids l) -> D x = false) as H' by (intros; apply H; now right). clear H.
  induction IH as [|t l Ht _ IHl]; [reflexivity|]. cbn. rewrite Ht; [cbn; f_equal; apply IHl|]; intros; apply H'; cbn; apply in_app_iff; auto.
Qed.
Lemma flat_id {A} (f : A -> list A) l : (forall x, In x l -> f x = [x]) -> flat_map f l = l.
Proof. induction l as [|x l IH]; intros H; [reflexivity|]. cbn. rewrite (H x (or_introl eq_refl)). cbn. f_equal. apply IH. intros; apply H. now right. Qed.
Lemma dropped_id D t : (forall x, In x (flat_map ids (below t)) -> D x = false) -> dropped D t = t.
Proof. destruct t as [i l]. unfold dropped. cbn [below root]. intros H. f_equal. apply flat_id. intros t Ht. apply prune_id. intros x Hx. apply H. apply in_flat_map. eauto. Qed.

Lemma drop_each_ok l : forall h, forest h -> exists h', drop_each l h = Some h' /\ forest h' /\ size h' = size h /\
  (forall n, In n l -> par h' n = None) /\ (forall x, par h x = None -> par h' x = None) /\ (forall x, ~ In x l -> par h' x = par h x) /\
  (forall t, shows h t -> exists t', shows h' t' /\ root t' = root t /\ (forall D, (forall n, In n l -> D n = true) -> dropped D t' = dropped D t)).
Proof.
  induction l as [|n l IH]; intros h G; cbn [drop_each].
  - exists h. repeat split; auto; try apply G. + intros n []. + intros t St. exists t. auto.
  - destruct (par h n) as [p|] eqn:Hp.
    + destruct (remove_child_ok h p n G Hp) as (h1 & -> & G1 & S1 & P1 & Q1 & Z1). destruct (IH h1 G1) as (h2 & E2 & G2 & Z2 & N2 & K2 & O2 & T2). exists h2. split; [exact E2|]. split; [exact G2|]. split; [congruence|].
      split; [intros m [<-|Hm]; [now apply K2|now apply N2]|]. split; [intros x Hx; apply K2; destruct (Nat.eq_dec x n) as [->|Nx]; [exact P1|rewrite Q1; auto]|].
      split; [intros x Hx; rewrite O2 by (intros ?; apply Hx; now right); apply Q1; intros ->; apply Hx; now left|].
      intros t St. destruct (T2 _ (S1 t St)) as (t' & St' & Rt' & Dt'). exists t'. split; [exact St'|]. split; [now rewrite Rt', at_root|]. intros D HD. rewrite Dt' by (intros; apply HD; now right). apply dropped_at. apply HD. now left.
    + destruct (IH h G) as (h2 & E2 & G2 & Z2 & N2 & K2 & O2 & T2). exists h2. split; [exact E2|]. split; [exact G2|]. split; [exact Z2|]. split; [intros m [<-|Hm]; [now apply K2|now apply N2]|]. split; [exact K2|].
      split; [intros x Hx; apply O2; intros ?; apply Hx; now right|].
      intros t St. destruct (T2 t St) as (t' & St' & Rt' & Dt'). exists t'. split; [exact St'|]. split; [exact Rt'|]. intros D HD. apply Dt'. intros; apply HD; now right.
Qed.
(* a node below the root has a parent *)
Lemma below_has_parent h t x : forest h -> shows h t -> In x (flat_map ids (below t)) -> par h x <> None.
Proof.
  intros G St Hx. destruct (f_depth _ G) as (d & b & Hd & _). destruct t as [i l]. cbn [below] in Hx. pose proof (not_below_itself h i l G St) as Ni.
  destruct (below_deeper h G d Hd (T i l) St x (or_intror Hx)) as [->|(_ & p & Hp & _)]; [contradiction|congruence].
Qed.
Lemma drop_recorded_ok l h t : forest h -> shows h t -> exists h', drop_recorded l h = Some h' /\ forest h' /\ size h' = size h /\
  (forall n, In n l -> par h' n = None) /\ (forall x, ~ In x l -> par h' x = par h x) /\ shows h' (dropped (fun x => mem x l) t).
Proof.
  intros G St. unfold drop_recorded. destruct (drop_each_ok (rev l) h G) as (h' & E & G' & Z & N & _ & O' & T'). exists h'. split; [exact E|]. split; [exact G'|]. split; [exact Z|].
  assert (forall n, In n l -> par h' n = None) as N' by (intros n Hn; apply N; now apply -> in_rev). split; [exact N'|]. split; [intros x Hx; apply O'; now rewrite <- in_rev|].
  destruct (T' t St) as (t' & St' & _ & Dt'). rewrite <- (Dt' (fun x => mem x l)) by (intros n Hn; apply mem_In; now apply in_rev).
  rewrite dropped_id; [exact St'|]. intros x Hx. destruct (mem x l) eqn:Em; [|reflexivity]. apply mem_In in Em. exfalso. exact (below_has_parent h' t' x G' St' Hx (N' x Em)).
Qed.

(* ---- opening up marked children ---- *)
Fixpoint expand (M : nat -> bool) (t : tree) : list tree := let 'T i l := t in if M i then flat_map (expand M) l else [t].
Fixpoint gone (M : nat -> bool) (t : tree) : list nat := let 'T i l := t in if M i then i :: flat_map (gone M) l else [].
Definition front M (l : list tree) : list nat := map root (flat_map (expand M) l).
Definition goners M (l : list tree) : list nat := flat_map (gone M) l.
Lemma front_cons M t l : front M (t :: l) = front M [t] ++ front M l.
Proof. unfold front. cbn. now rewrite app_nil_r, map_app. Qed.
Lemma front_app M a b : front M (a ++ b) = front M a ++ front M b.
Proof. unfold front. now rewrite flat_map_app, map_app. Qed.
Lemma goners_app M a b : goners M (a ++ b) = goners M a ++ goners M b.
Proof. apply flat_map_app. Qed.
Lemma front_T M i l : front M [T i l] = if M i then front M l else [i].
Proof. unfold front. cbn. destruct (M i); cbn; now rewrite ?app_nil_r. Qed.
Lemma goners_T M i l : goners M [T i l] = if M i then i :: goners M l else [].
Proof. unfold goners. cbn. destruct (M i); cbn; now rewrite ?app_nil_r. Qed.
Lemma expand_reduces M : reduces (flat_map (expand M)).
Proof.
  assert (W : forall t x, In x (flat_map nodes (expand M t)) -> In x (nodes t)).
  { induction t as [i l IH] using tree_ind'. rewrite Forall_forall in IH. intros x. cbn [expand]. destruct (M i).
    - intros H. rewrite nodes_T. right. apply in_flat_map in H as (u & Hu & H). apply in_flat_map in Hu as (t & Ht & Hu). apply in_flat_map. exists t. split; [exact Ht|]. apply (IH t Ht). apply in_flat_map. eauto.
    - cbn [flat_map]. now rewrite app_nil_r. }
  intros l x H. apply in_flat_map in H as (u & Hu & H). apply in_flat_map in Hu as (t & Ht & Hu). apply in_flat_map. exists t. split; [exact Ht|]. apply W. apply in_flat_map. eauto.
Qed.
Lemma front_unmarked M l x : In x (front M l) -> M x = false.
Proof.
  assert (W : forall t, In x (front M [t]) -> M x = false).
  { induction t as [i m IH] using tree_ind'. rewrite front_T. destruct (M i) eqn:Mi; [|intros [<-|[]]; exact Mi]. induction IH as [|t m Ht _ IHm]; [intros []|]. rewrite front_cons, in_app_iff. intros [H|H]; auto. }
  induction l as [|t l IHl]; [intros []|]. rewrite front_cons, in_app_iff. intros [H|H]; eauto.
Qed.
Lemma goners_marked M l x : In x (goners M l) -> M x = true.
Proof.
  assert (W : forall t, In x (goners M [t]) -> M x = true).
  { induction t as [i m IH] using tree_ind'. rewrite goners_T. destruct (M i) eqn:Mi; [|intros []]. intros [<-|H]; [exact Mi|]. revert H. induction IH as [|t m Ht _ IHm]; [intros []|]. change (t :: m) with ([t] ++ m). rewrite goners_app, in_app_iff. intros [H|H]; auto. }
  induction l as [|t l IHl]; [intros []|]. change (t :: l) with ([t] ++ l). rewrite goners_app, in_app_iff. intros [H|H]; eauto.
Qed.
Lemma goners_ids M l x : In x (goners M l) -> In x (flat_map ids l).
Proof.
  assert (W : forall t, In x (gone M t) -> In x (ids t)).
  { induction t as [i m IH] using tree_ind'. rewrite Forall_forall in IH. cbn. destruct (M i); [|intros []]. intros [<-|H]; [now left|right]. apply in_flat_map in H as (t & Ht & H). apply in_flat_map. eauto. }
  unfold goners. intros H. apply in_flat_map in H as (t & Ht & H). apply in_flat_map. eauto.
Qed.
Lemma front_ids M l x : In x (front M l) -> In x (flat_map ids l).
Proof.
  assert (W : forall t, In x (front M [t]) -> In x (ids t)).
  { induction t as [i m IH] using tree_ind'. rewrite front_T. cbn [ids]. destruct (M i) eqn:Mi; [|intros [<-|[]]; now left]. intros H. right. revert H. induction IH as [|t m Ht _ IHm]; [intros []|]. rewrite front_cons. cbn [flat_map]. rewrite !in_app_iff. intros [H|H]; auto. }
  induction l as [|t l IHl]; [intros []|]. rewrite front_cons. cbn [flat_map]. rewrite !in_app_iff. intros [H|H]; eauto.
Qed.
Lemma nodup_app {A} (a b : list A) : NoDup (a ++ b) -> NoDup a /\ NoDup b /\ (forall x, In x a -> ~ In x b).
Proof.
  induction a as [|x a IH]; cbn; intros N; [split; [constructor|split; [exact N|intros ? []]]|]. inversion N as [|? ? H1 H2]; subst. destruct (IH H2) as (N1 & N2 & Dj). rewrite in_app_iff in H1.
  split; [constructor; tauto|]. split; [exact N2|]. intros y [<-|Hy]; [tauto|auto].
Qed.
Lemma nodup_join {A} (a b : list A) : NoDup a -> NoDup b -> (forall x, In x a -> ~ In x b) -> NoDup (a ++ b).
Proof. induction a as [|x a IH]; intros N1 N2 Dj; [exact N2|]. inversion N1; subst. cbn. constructor; [rewrite in_app_iff; intros [?|?]; [contradiction|]; exact (Dj x (or_introl eq_refl) H)|]. apply IH; auto. intros y Hy. apply Dj. now right. Qed.
Lemma front_once M l : NoDup (flat_map ids l) -> NoDup (front M l).
Proof.
  assert (L : forall l, Forall (fun t => NoDup (ids t) -> NoDup (front M [t])) l -> NoDup (flat_map ids l) -> NoDup (front M l)).
  { induction l0 as [|t m IHm]; intros F N; [constructor|]. inversion F; subst. cbn in N. apply nodup_app in N as (N1 & N2 & Dj). rewrite front_cons. apply nodup_join; auto.
    intros x Hx Hm. apply (Dj x); [|exact (front_ids _ _ _ Hm)]. apply front_ids in Hx. cbn in Hx. now rewrite app_nil_r in Hx. }
  apply L. apply Forall_forall. intros t _. induction t as [i m IH] using tree_ind'. cbn [ids]. intros N. rewrite front_T. destruct (M i); [|constructor; [intros []|constructor]]. inversion N; subst. auto.
Qed.
(* what lies where *)
Lemma front_parent h M l x : Forall (shows h) l -> In x (front M l) -> In x (map root l) \/ exists q, In q (goners M l) /\ In x (kids h q).
Proof.
  assert (W : forall t, shows h t -> In x (front M [t]) -> x = root t \/ exists q, In q (gone M t) /\ In x (kids h q)).
  { induction t as [i m IH] using tree_ind'. rewrite Forall_forall in IH. intros St. rewrite front_T. cbn [gone root]. apply shows_T in St as [K F]. rewrite Forall_forall in F. destruct (M i); [|intros [<-|[]]; now left].
    intros H. right. unfold front in H. apply in_map_iff in H as (u & Eu & H). apply in_flat_map in H as (t & Ht & H). destruct (IH t Ht (F t Ht)) as [->|(q & Hq & Hx)].
    - unfold front. cbn. rewrite app_nil_r. rewrite <- Eu. now apply in_map.
    - exists i. split; [now left|]. rewrite K. now apply in_map.
    - exists q. split; [right; apply in_flat_map; eauto|exact Hx]. }
  induction 1 as [|t l St F IH]; [intros []|]. rewrite front_cons, in_app_iff. change (t :: l) with ([t] ++ l). rewrite goners_app. intros [H|H].
  - destruct (W t St H) as [->|(q & Hq & Hx)]; [left; now left|]. right. exists q. split; [|exact Hx]. apply in_app_iff. left. unfold goners. cbn. now rewrite app_nil_r.
  - destruct (IH H) as [Hr|(q & Hq & Hx)]; [left; now right|]. right. exists q. split; [|exact Hx]. apply in_app_iff. now right.
Qed.
Lemma gone_parent h M l x : Forall (shows h) l -> In x (goners M l) -> In x (map root l) \/ exists q, In q (goners M l) /\ In x (kids h q).
Proof.
  assert (W : forall t, shows h t -> In x (gone M t) -> x = root t \/ exists q, In q (gone M t) /\ In x (kids h q)).
  { induction t as [i m IH] using tree_ind'. rewrite Forall_forall in IH. intros St. cbn [gone root]. apply shows_T in St as [K F]. rewrite Forall_forall in F. destruct (M i); [|intros []]. intros [->|H]; [now left|].
    right. apply in_flat_map in H as (t & Ht & H). destruct (IH t Ht (F t Ht) H) as [->|(q & Hq & Hx)]; [exists i; split; [now left|]; rewrite K; now apply in_map|]. exists q. split; [right; apply in_flat_map; eauto|exact Hx]. }
  intros F H. rewrite Forall_forall in F. unfold goners in *. apply in_flat_map in H as (t & Ht & H). destruct (W t (F t Ht) H) as [->|(q & Hq & Hx)]; [left; now apply in_map|]. right. exists q. split; [apply in_flat_map; eauto|exact Hx].
Qed.
Lemma root_either M l x : In x (map root l) -> In x (goners M l) \/ In x (front M l).
Proof.
  intros H. apply in_map_iff in H as ([i m] & <- & Ht). cbn [root]. destruct (M i) eqn:Mi.
  - left. apply in_flat_map. exists (T i m). split; [exact Ht|]. cbn. rewrite Mi. now left.
  - right. unfold front. apply in_map_iff. exists (T i m). split; [reflexivity|]. apply in_flat_map. exists (T i m). split; [exact Ht|]. cbn. rewrite Mi. now left.
Qed.
Lemma child_either h M l q x : Forall (shows h) l -> In q (goners M l) -> In x (kids h q) -> In x (goners M l) \/ In x (front M l).
Proof.
  assert (W : forall t, shows h t -> In q (gone M t) -> In x (kids h q) -> In x (gone M t) \/ In x (front M [t])).
  { induction t as [i m IH] using tree_ind'. rewrite Forall_forall in IH. intros St. rewrite front_T. cbn [gone]. apply shows_T in St as [K F]. rewrite Forall_forall in F. destruct (M i); [|intros []]. intros [<-|H] Hx.
    - rewrite K in Hx. destruct (root_either M m x Hx) as [Hg|Hf]; [left; now right|now right].
    - apply in_flat_map in H as (t & Ht & H). destruct (IH t Ht (F t Ht) H Hx) as [Hg|Hf]; [left; right; apply in_flat_map; eauto|right].
      unfold front in *. cbn in Hf. rewrite app_nil_r in Hf. apply in_map_iff in Hf as (u & <- & Hu). apply in_map. apply in_flat_map. eauto. }
  intros F H Hx. rewrite Forall_forall in F. unfold goners in *. apply in_flat_map in H as (t & Ht & H). destruct (W t (F t Ht) H Hx) as [Hg|Hf]; [left; apply in_flat_map; eauto|right].
  unfold front in *. cbn in Hf. rewrite app_nil_r in Hf. apply in_map_iff in Hf as (u & <- & Hu). apply in_map. apply in_flat_map. eauto.
Qed.

Lemma open_step h h' p M l : forest h -> shows h (T p l) -> M p = false -> size h' = size h ->
  (forall x, kids h' x = if x =? p then front M l else if mem x (goners M l) then [] else kids h x) ->
  (forall x, par h' x = if mem x (goners M l) then None else if mem x (front M l) then Some p else par h x) ->
  forest h' /\ (forall t, shows h t -> mem (root t) (goners M l) = false -> shows h' (at_node p (flat_map (expand M)) t)).
Proof.
  intros G St Mp Zs K P. set (E := fun x => mem x (goners M l)).
  assert (Fl : Forall (shows h) l) by (apply shows_T in St; tauto). assert (Kp : kids h p = map root l) by (apply shows_T in St; tauto).
  assert (EI : forall x, E x = true <-> In x (goners M l)) by (intros; apply mem_In).
  assert (Em : forall x, E x = true -> M x = true) by (intros x Hx; apply EI in Hx; exact (goners_marked _ _ _ Hx)).
  assert (Fm : forall x, In x (front M l) -> E x = false) by (intros x Hx; destruct (E x) eqn:Ex; [|reflexivity]; apply Em in Ex; apply front_unmarked in Hx; congruence).
  assert (Ep : E p = false) by (destruct (E p) eqn:Ex; [apply Em in Ex; congruence|reflexivity]).
  assert (K' : kids h' p = front M l) by (rewrite K, Nat.eqb_refl; reflexivity).
  assert (Z : step h h' p (flat_map (expand M)) E).
  { constructor.
    - exact Zs.
    - intros l0 S0. rewrite K'. assert (T p l0 = T p l) as [= ->] by (apply (shows_fun h); auto). reflexivity.
    - intros x Nx Ex. rewrite K. destruct (Nat.eqb_spec x p); [contradiction|]. unfold E in Ex. now rewrite Ex.
    - intros x Ex. rewrite K, P. destruct (Nat.eqb_spec x p) as [->|]; [congruence|]. unfold E in Ex. rewrite Ex. auto.
    - intros x Ex. rewrite K', P. unfold E in Ex. rewrite Ex. destruct (mem x (front M l)) eqn:Mx; [left; now apply mem_In|now right].
    - intros x. rewrite K', P. intros Hx. pose proof (Fm x Hx) as Ex. split; [exact Ex|]. unfold E in Ex. rewrite Ex. apply mem_In in Hx. now rewrite Hx.
    - intros x Hx Ex. rewrite K'. apply (f_links _ G) in Hx. rewrite Kp in Hx. destruct (root_either M l x Hx) as [Hg|Hf]; [apply EI in Hg; congruence|exact Hf].
    - intros x q Ex Hq. apply EI in Ex. destruct (gone_parent h M l x Fl Ex) as [Hr|(q' & Hq' & Hx)]; [left|right]; [rewrite <- Kp in Hr; apply (f_links _ G) in Hr; congruence|]. apply (f_links _ G) in Hx. assert (q' = q) as -> by congruence. now apply EI.
    - intros x q Eq Hx. rewrite K'. apply (f_links _ G) in Hx. apply EI in Eq. destruct (child_either h M l q x Fl Eq Hx) as [Hg|Hf]; [left; now apply EI|now right].
    - intros x. rewrite K'. intros Hx. destruct (front_parent h M l x Fl Hx) as [Hr|(q & Hq & Hk)]; [left; apply (f_links _ G); now rewrite Kp|right]. exists q. split; [now apply EI|]. now apply (f_links _ G). }
  assert (Eb : forall d, (forall q c, par h c = Some q -> d q < d c) -> forall x, E x = true -> d p < d x).
  { intros d Hd x Ex. apply EI, goners_ids in Ex. destruct (below_deeper h G d Hd (T p l) St x (or_intror Ex)) as [->|[L _]]; [|exact L]. exfalso. exact (not_below_itself h p l G St Ex). }
  pose proof (no_dup h _ G St) as N. cbn [ids] in N. inversion N as [|? ? _ N2]; subst.
  split; [apply (step_forest h h' p (flat_map (expand M)) E); auto; rewrite K'; now apply front_once|].
  intros t Ht Rt. apply (step_shows h h' p (flat_map (expand M)) E); auto. apply expand_reduces.
Qed.
Lemma hoist_expand M l : flat_map (hoist M) (flat_map (expand M) l) = flat_map (hoist M) l.
Proof.
  assert (W : forall t, flat_map (hoist M) (expand M t) = hoist M t).
  { induction t as [i m IH] using tree_ind'. cbn [expand hoist]. destruct (M i) eqn:Mi; [|cbn; rewrite Mi; reflexivity]. induction IH as [|t m Ht _ IHm]; [reflexivity|]. cbn. now rewrite flat_map_app, Ht, IHm. }
  induction l as [|t l IH]; [reflexivity|]. cbn. now rewrite flat_map_app, W, IH.
Qed.
(* opening up some marked nodes does not change what is left when all are opened *)
Lemma hoist_expand_sub M N l : (forall x, N x = true -> M x = true) -> flat_map (hoist M) (flat_map (expand N) l) = flat_map (hoist M) l.
Proof.
  intros H. assert (W : forall t, flat_map (hoist M) (expand N t) = hoist M t).
  { induction t as [i m IH] using tree_ind'. cbn [expand]. destruct (N i) eqn:Ni; [|cbn; now rewrite app_nil_r]. cbn [hoist]. rewrite (H i Ni). clear Ni. induction IH as [|t m Ht _ IHm]; [reflexivity|]. cbn. now rewrite flat_map_app, Ht, IHm. }
  induction l as [|t l IH]; [reflexivity|]. cbn. now rewrite flat_map_app, W, IH.
Qed.
Lemma hoist_at M N p t : (forall x, N x = true -> M x = true) -> hoist M (at_node p (flat_map (expand N)) t) = hoist M t.
Proof.
  intros H. induction t as [i l IH] using tree_ind'. cbn [at_node hoist]. assert (flat_map (hoist M) (if i =? p then flat_map (expand N) l else map (at_node p (flat_map (expand N))) l) = flat_map (hoist M) l) as ->; [|reflexivity].
  destruct (i =? p); [now apply hoist_expand_sub|]. induction IH as [|t l Ht _ IHl]; [reflexivity|]. cbn. now rewrite Ht, IHl.
Qed.
Lemma unwrapped_at M N p t : (forall x, N x = true -> M x = true) -> unwrapped M (at_node p (flat_map (expand N)) t) = unwrapped M t.
Proof.
  intros H. destruct t as [i l]. unfold unwrapped. cbn [at_node root below]. f_equal. destruct (i =? p); [now apply hoist_expand_sub|]. induction l as [|t l IHl]; [reflexivity|]. cbn. now rewrite (hoist_at M N p t H), IHl.
Qed.
Lemma hoist_id M t : (forall x, In x (ids t) -> M x = false) -> hoist M t = [t].
Proof.
  induction t as [i l IH] using tree_ind'. intros H. cbn. rewrite (H i (or_introl eq_refl)). f_equal. f_equal. cbn [ids] in H. assert (forall x, In x (flat_map ids l) -> M x = false) as H' by (intros; apply H; now right). clear H.
  induction IH as [|t l Ht _ IHl]; [reflexivity|]. cbn. rewrite Ht; [cbn; f_equal; apply IHl|]; intros; apply H'; cbn; apply in_app_iff; auto.
Qed.
Lemma unwrapped_id M t : (forall x, In x (flat_map ids (below t)) -> M x = false) -> unwrapped M t = t.
Proof. destruct t as [i l]. unfold unwrapped. cbn [below root]. intros H. f_equal. apply flat_id. intros t Ht. apply hoist_id. intros x Hx. apply H. apply in_flat_map. eauto. Qed.
