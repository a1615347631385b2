From Coq Require Import List Arith Bool Lia.
From Verif Require Import FinishModel FinishSpec FinishProofs.
Import ListNotations.

Lemma calm_front N l : (forall x, In x (map root l) -> N x = false) -> front N l = map root l /\ goners N l = [].
Proof.
  induction l as [|[i m] l IH]; intros H; [split; reflexivity|]. destruct IH as [IH1 IH2]; [intros; apply H; now right|]. pose proof (H i (or_introl eq_refl)) as Ni.
  rewrite front_cons, front_T, Ni, IH1. change (T i m :: l) with ([T i m] ++ l). rewrite goners_app, goners_T, Ni, IH2. split; reflexivity.
Qed.
Lemma ids_length l : forall m, incl l (seq 0 m) -> NoDup l -> List.length l <= m.
Proof. intros m I N. pose proof (NoDup_incl_length N I) as L. now rewrite seq_length in L. Qed.

(* ---- one node at a time ---- *)
Lemma unwrap_node_ok h p n : forest h -> par h n = Some p -> exists h', unwrap_node n h = Some h' /\ forest h' /\ par h' n = None /\
  (forall x, par h x = None -> par h' x = None) /\ (forall t, shows h t -> root t <> n -> shows h' (at_node p (flat_map (expand (Nat.eqb n))) t)).
Proof.
  intros G Hp. pose proof (proj2 (f_links _ G p n) Hp) as Hi. destruct (index_some _ _ Hi) as (i & Ei). unfold unwrap_node. rewrite Hp, Ei.
  destruct (index_spec _ _ _ Ei) as (a & b & Ek & <- & _). destruct (has_tree h G p) as ([p0 l] & Ep & St). cbn in Ep. subst p0.
  assert (Kp : kids h p = map root l) by (apply shows_T in St; tauto). assert (Fl : Forall (shows h) l) by (apply shows_T in St; tauto).
  pose proof (f_once _ G p) as N. rewrite Ek in N.
  assert (exists la gs lb, l = la ++ T n gs :: lb /\ map root la = a /\ map root lb = b) as (la & gs & lb & -> & <- & <-).
  { rewrite Ek in Kp. symmetry in Kp. apply map_eq_app in Kp as (la & lb & -> & E1 & E2). destruct lb as [|[j gs] lb]; [discriminate|]. injection E2 as -> E2. exists la, gs, lb. auto. }
  assert (Sn : shows h (T n gs)) by (rewrite Forall_forall in Fl; apply Fl; apply in_app_iff; right; now left).
  assert (Kn : kids h n = map root gs) by (apply shows_T in Sn; tauto).
  pose proof (NoDup_remove_2 _ _ _ N) as Nn. rewrite in_app_iff in Nn.
  assert (Ng : ~ In n (map root gs)). { intros H. apply (not_below_itself h n gs G Sn). apply in_map_iff in H as (t & <- & Ht). apply in_flat_map. exists t. split; [exact Ht|apply root_in]. }
  assert (C : forall m, ~ In n (map root m) -> front (Nat.eqb n) m = map root m /\ goners (Nat.eqb n) m = []).
  { intros m Hm. apply calm_front. intros x Hx. apply Nat.eqb_neq. intros ->. contradiction. }
  destruct (C la ltac:(tauto)) as [FA GA], (C lb ltac:(tauto)) as [FB GB], (C gs Ng) as [FG GG].
  assert (EF : front (Nat.eqb n) (la ++ T n gs :: lb) = map root la ++ map root gs ++ map root lb). { change (T n gs :: lb) with ([T n gs] ++ lb). rewrite !front_app, front_T, Nat.eqb_refl, FA, FB, FG. reflexivity. }
  assert (EG : goners (Nat.eqb n) (la ++ T n gs :: lb) = [n]). { change (T n gs :: lb) with ([T n gs] ++ lb). rewrite !goners_app, goners_T, Nat.eqb_refl, GA, GB, GG. reflexivity. }
  assert (Np : n <> p). { intros ->. destruct (f_depth _ G) as (d & m & Hd & _). specialize (Hd _ _ Hp). lia. }
  match goal with |- exists h', Some ?x = Some h' /\ _ => set (h' := x) end. exists h'. split; [reflexivity|].
  assert (Kh : forall x, kids h' x = if x =? p then front (Nat.eqb n) (la ++ T n gs :: lb) else if mem x (goners (Nat.eqb n) (la ++ T n gs :: lb)) then [] else kids h x).
  { intros x. rewrite EF, EG. unfold h'. rewrite Ek, Kn. cbn [mem existsb]. rewrite orb_false_r. destruct gs as [|g gs'].
    - cbn [map app]. rewrite splice_eq. cbn. unfold upd. destruct (x =? p) eqn:Xp; [reflexivity|]. destruct (x =? n); reflexivity.
    - cbn [map]. rewrite splice_eq. cbn [set_par set_kids kids]. rewrite kids_adopt. cbn [set_kids kids]. unfold upd. destruct (x =? p) eqn:Xp; [reflexivity|]. destruct (x =? n); reflexivity. }
  assert (Pn : forall x, par h' x = if x =? n then None else if mem x (map root gs) then Some p else par h x).
  { intros x. unfold h'. rewrite Kn. destruct gs as [|g gs']; [cbn; unfold upd; destruct (x =? n); reflexivity|]. cbn [map set_par set_kids par]. unfold upd at 1. rewrite par_adopt. reflexivity. }
  assert (Ph : forall x, par h' x = if mem x (goners (Nat.eqb n) (la ++ T n gs :: lb)) then None else if mem x (front (Nat.eqb n) (la ++ T n gs :: lb)) then Some p else par h x).
  { intros x. rewrite Pn, EF, EG. cbn [mem existsb]. rewrite orb_false_r. destruct (x =? n) eqn:Xn; [reflexivity|]. fold (mem x). rewrite !mem_app. destruct (mem x (map root gs)); [rewrite orb_true_r; reflexivity|].
    cbn [orb]. destruct (mem x (map root la) || mem x (map root lb)) eqn:Ex; [|reflexivity]. apply (f_links _ G). rewrite Ek. apply orb_true_iff in Ex. rewrite !mem_In in Ex. rewrite in_app_iff. cbn. tauto. }
  assert (Zh : size h' = size h) by (unfold h'; destruct (kids h n); cbn [set_par set_kids size]; rewrite ?size_adopt; reflexivity).
  destruct (open_step h h' p (Nat.eqb n) _ G St ltac:(now apply Nat.eqb_neq) Zh Kh Ph) as [G' T'].
  split; [exact G'|]. split; [rewrite Pn, Nat.eqb_refl; reflexivity|]. split.
  - intros x Hx. rewrite Pn. destruct (x =? n); [reflexivity|]. destruct (mem x (map root gs)) eqn:Mx; [|exact Hx]. apply mem_In in Mx. rewrite <- Kn in Mx. apply (f_links _ G) in Mx. congruence.
  - intros t St' Rt. apply T'; [exact St'|]. rewrite EG. cbn. rewrite orb_false_r. now apply Nat.eqb_neq.
Qed.
Lemma unwrap_each_ok l : forall h, forest h -> exists h', unwrap_each l h = Some h' /\ forest h' /\ (forall n, In n l -> par h' n = None) /\
  (forall x, par h x = None -> par h' x = None) /\
  (forall t, shows h t -> ~ In (root t) l -> exists t', shows h' t' /\ root t' = root t /\ (forall M, (forall n, In n l -> M n = true) -> unwrapped M t' = unwrapped M t)).
Proof.
  induction l as [|n l IH]; intros h G; cbn [unwrap_each].
  - exists h. repeat split; auto; try apply G. + intros n []. + intros t St _. exists t. auto.
  - destruct (par h n) as [p|] eqn:Hp.
    + destruct (unwrap_node_ok h p n G Hp) as (h1 & -> & G1 & P1 & Q1 & S1). destruct (IH h1 G1) as (h2 & E2 & G2 & N2 & K2 & T2). exists h2. split; [exact E2|]. split; [exact G2|].
      split; [intros m [<-|Hm]; [now apply K2|now apply N2]|]. split; [intros x Hx; apply K2; now apply Q1|].
      intros t St Rt. destruct (T2 _ (S1 t St ltac:(intros E0; apply Rt; left; now symmetry)) ltac:(rewrite at_root; intros ?; apply Rt; now right)) as (t' & St' & Rt' & Mt'). exists t'. split; [exact St'|]. split; [now rewrite Rt', at_root|].
      intros M HM. rewrite Mt' by (intros; apply HM; now right). apply unwrapped_at. intros x Hx. apply Nat.eqb_eq in Hx. subst x. apply HM. now left.
    + destruct (IH h G) as (h2 & E2 & G2 & N2 & K2 & T2). exists h2. split; [exact E2|]. split; [exact G2|]. split; [intros m [<-|Hm]; [now apply K2|now apply N2]|]. split; [exact K2|].
      intros t St Rt. destruct (T2 t St ltac:(intros ?; apply Rt; now right)) as (t' & St' & Rt' & Mt'). exists t'. split; [exact St'|]. split; [exact Rt'|]. intros M HM. apply Mt'. intros; apply HM; now right.
Qed.
Lemma one_by_one l h t : forest h -> shows h t -> ~ In (root t) l -> exists h', unwrap_each l h = Some h' /\ forest h' /\ shows h' (unwrapped (fun x => mem x l) t).
Proof.
  intros G St Rt. destruct (unwrap_each_ok l h G) as (h' & E & G' & N & _ & T'). exists h'. split; [exact E|]. split; [exact G'|].
  destruct (T' t St Rt) as (t' & St' & _ & Mt'). rewrite <- (Mt' (fun x => mem x l)) by (intros n Hn; now apply mem_In).
  rewrite unwrapped_id; [exact St'|]. intros x Hx. destruct (mem x l) eqn:Em; [|reflexivity]. apply mem_In in Em. exfalso. exact (below_has_parent h' t' x G' St' Hx (N x Em)).
Qed.

(* ---- all at once ---- *)
Section batch.
Variable marked : list nat.
Let M := fun x => mem x marked.
Definition eff (p : nat) (ts : list tree) (h h' : heap) : Prop :=
  size h' = size h /\ (forall x, kids h' x = if mem x (goners M ts) then [] else kids h x) /\
  (forall x, par h' x = if mem x (goners M ts) then None else if mem x (front M ts) then Some p else par h x).
Lemma eff_kids p ts h h' x : eff p ts h h' -> ~ In x (flat_map ids ts) -> kids h' x = kids h x.
Proof. intros (_ & K & _) Hx. rewrite K. destruct (mem x (goners M ts)) eqn:Ex; [|reflexivity]. apply mem_In, goners_ids in Ex. contradiction. Qed.
Lemma shows_keep h h' t : (forall x, In x (ids t) -> kids h' x = kids h x) -> shows h t -> shows h' t.
Proof. intros K St. apply shows_nodes. intros i cs Hi. rewrite K by (apply nodes_ids; eauto). exact (proj1 (shows_nodes h t) St i cs Hi). Qed.
Lemma forall_keep h h' l : (forall x, In x (flat_map ids l) -> kids h' x = kids h x) -> Forall (shows h) l -> Forall (shows h') l.
Proof. intros K F. rewrite Forall_forall in *. intros t Ht. apply (shows_keep h); [|auto]. intros x Hx. apply K. apply in_flat_map. eauto. Qed.
Lemma eff_app p a b h h1 h2 : eff p a h h1 -> eff p b h1 h2 -> eff p (a ++ b) h h2.
Proof.
  intros (Z1 & K1 & P1) (Z2 & K2 & P2). unfold eff. rewrite goners_app, front_app. split; [congruence|]. split; intros x; rewrite !mem_app.
  - rewrite K2, K1. destruct (mem x (goners M b)), (mem x (goners M a)); reflexivity.
  - rewrite P2, P1. destruct (mem x (goners M b)) eqn:Gb; [rewrite orb_true_r; reflexivity|]. rewrite orb_false_r. destruct (mem x (goners M a)) eqn:Ga.
    + destruct (mem x (front M b)) eqn:Fb; [|reflexivity]. apply mem_In in Ga, Fb. apply goners_marked in Ga. apply front_unmarked in Fb. congruence.
    + destruct (mem x (front M b)); [rewrite orb_true_r; reflexivity|]. rewrite orb_false_r. reflexivity.
Qed.
Lemma eff_unmarked p i l h : M i = false -> par h i = Some p -> eff p [T i l] h h.
Proof.
  intros Mi Hp. unfold eff. rewrite goners_T, front_T, Mi. split; [reflexivity|]. split; intros x; cbn; [reflexivity|]. rewrite orb_false_r. destruct (Nat.eqb_spec x i) as [->|]; auto.
Qed.
Lemma expand_loop_ok p fuel : forall ts acc h, NoDup (flat_map ids ts) -> Forall (shows h) ts -> (forall t, In t ts -> par h (root t) = Some p) -> List.length (flat_map ids ts) <= fuel ->
  exists h', expand_loop fuel p marked (map root ts) acc h = Some (rev acc ++ front M ts, h') /\ eff p ts h h'.
Proof.
  induction fuel as [|fuel IH]; intros [|[i l] ts] acc h N F P L; try (cbn in L; lia).
  1,2: exists h; split; [cbn; now rewrite app_nil_r|]; unfold eff; cbn; auto.
  cbn [map root expand_loop]. fold (M i). cbn [flat_map ids] in N, L. cbn [app] in N, L. apply Forall_cons_iff in F as [Si F]. assert (Ki : kids h i = map root l) by (apply shows_T in Si; tauto). assert (Fl : Forall (shows h) l) by (apply shows_T in Si; tauto).
  pose proof (P _ (or_introl eq_refl)) as Pi. cbn in Pi. inversion N as [|? ? Ni N2]; subst. change (T i l :: ts) with ([T i l] ++ ts). rewrite front_app, front_T. destruct (M i) eqn:Mi; cbn [negb].
  - rewrite Ki. rewrite <- map_app. set (h1 := adopt (map root l) p (set_par i None (set_kids i [] h))).
    assert (K1 : forall x, kids h1 x = if x =? i then [] else kids h x) by (intros x; unfold h1; rewrite kids_adopt; reflexivity).
    assert (P1 : forall x, par h1 x = if mem x (map root l) then Some p else if x =? i then None else par h x) by (intros x; unfold h1; rewrite par_adopt; reflexivity).
    destruct (IH (l ++ ts) acc h1) as (h2 & E2 & (Z2 & K2 & P2)).
    + rewrite flat_map_app. exact N2.
    + apply (forall_keep h).
      * intros x Hx. rewrite K1. destruct (Nat.eqb_spec x i) as [->|]; [|reflexivity]. exfalso. apply Ni. now rewrite flat_map_app in Hx.
      * apply Forall_app. auto.
    + intros t Ht. rewrite P1. destruct (mem (root t) (map root l)) eqn:Mt; [reflexivity|]. apply in_app_iff in Ht as [Ht|Ht]; [apply (in_map root), mem_In in Ht; congruence|].
      destruct (Nat.eqb_spec (root t) i) as [E|]; [|apply P; now right]. exfalso. apply Ni. apply in_app_iff. right. apply in_flat_map. exists t. split; [exact Ht|]. rewrite <- E. apply root_in.
    + rewrite flat_map_app. cbn in L. lia.
    + exists h2. split; [rewrite E2, front_app; reflexivity|]. unfold eff. change (T i l :: ts) with ([T i l] ++ ts). rewrite goners_app, goners_T, front_app, front_T, Mi. rewrite goners_app in K2, P2. rewrite front_app in P2.
      split; [rewrite Z2; unfold h1; rewrite size_adopt; reflexivity|]. split; intros x.
      * rewrite K2, K1. cbn [app]. unfold mem at 2. cbn [existsb]. fold (mem x (goners M l ++ goners M ts)). destruct (mem x (goners M l ++ goners M ts)); [now rewrite orb_true_r|]. rewrite orb_false_r. reflexivity.
      * rewrite P2, P1. cbn [app]. unfold mem at 4. cbn [existsb]. fold (mem x (goners M l ++ goners M ts)). destruct (mem x (goners M l ++ goners M ts)) eqn:Gx; [now rewrite orb_true_r|]. rewrite orb_false_r.
        destruct (mem x (front M l ++ front M ts)) eqn:Fx.
        -- destruct (Nat.eqb_spec x i) as [->|]; [|reflexivity]. apply mem_In in Fx. apply in_app_iff in Fx as [Fx|Fx]; apply front_unmarked in Fx; congruence.
        -- destruct (mem x (map root l)) eqn:Rx; [|reflexivity]. exfalso. apply mem_In in Rx. rewrite mem_app in Gx, Fx. destruct (root_either M l x Rx) as [H|H]; apply mem_In in H; rewrite H in *; discriminate.
  - destruct (IH ts (i :: acc) h) as (h2 & E2 & E3).
    + apply nodup_app in N2. tauto.
    + exact F.
    + intros t Ht. apply P. now right.
    + cbn [List.length] in L. rewrite app_length in L. lia.
    + exists h2. split; [rewrite E2; cbn [rev]; rewrite <- app_assoc; reflexivity|]. change (T i l :: ts) with ([T i l] ++ ts). apply (eff_app p _ _ h h h2); [now apply eff_unmarked|exact E3].
Qed.

Variable nesting : list nat.
(* a marked node that is not in nesting has no marked children *)
Definition noted (t : tree) : Prop := forall i cs, In (i, cs) (nodes t) -> M i = true -> mem i nesting = false -> forall c, In c cs -> M c = false.
Lemma expanded_ok p i l h : M i = true -> shows h (T i l) -> NoDup (ids (T i l)) -> List.length (ids (T i l)) <= size h -> noted (T i l) ->
  exists h', expanded_children p i marked nesting h = Some (front M [T i l], h') /\ eff p [T i l] h h'.
Proof.
  intros Mi St N L No. unfold expanded_children. assert (Ki : kids h i = map root l) by (apply shows_T in St; tauto). assert (Fl : Forall (shows h) l) by (apply shows_T in St; tauto). rewrite Ki.
  set (h1 := adopt (map root l) p (set_par i None (set_kids i [] h))).
  assert (K1 : forall x, kids h1 x = if x =? i then [] else kids h x) by (intros x; unfold h1; rewrite kids_adopt; reflexivity).
  assert (P1 : forall x, par h1 x = if mem x (map root l) then Some p else if x =? i then None else par h x) by (intros x; unfold h1; rewrite par_adopt; reflexivity).
  assert (Z1 : size h1 = size h) by (unfold h1; rewrite size_adopt; reflexivity).
  cbn [ids] in N, L. inversion N as [|? ? Ni N2]; subst. rewrite front_T, Mi.
  assert (U : forall x, In x (map root l) -> x <> i). { intros x Hx ->. apply Ni. apply in_map_iff in Hx as (t & <- & Ht). apply in_flat_map. exists t. split; [exact Ht|apply root_in]. }
  assert (exists h2, (if negb (mem i nesting) then Some (map root l, h1) else expand_loop (size h1) p marked (map root l) [] h1) = Some (front M l, h2) /\ eff p l h1 h2) as (h2 & E2 & (Z2 & K2 & P2)).
  { destruct (mem i nesting) eqn:Ne; cbn [negb].
    - destruct (expand_loop_ok p (size h1) l [] h1) as (h2 & E2 & E3); [exact N2| | | |exists h2; auto].
      + apply (forall_keep h); [|exact Fl]. intros x Hx. rewrite K1. destruct (Nat.eqb_spec x i) as [->|]; [contradiction|reflexivity].
      + intros t Ht. rewrite P1. apply (in_map root), mem_In in Ht. now rewrite Ht.
      + rewrite Z1. cbn in L. lia.
    - destruct (calm_front M l) as [F0 G0]; [intros x Hx; refine (No i (map root l) _ Mi Ne x Hx); now left|]. exists h1. rewrite F0. split; [reflexivity|]. unfold eff. rewrite F0, G0. split; [reflexivity|]. split; intros x; cbn; [reflexivity|].
      rewrite P1. destruct (mem x (map root l)); reflexivity. }
  exists h2. split; [exact E2|]. unfold eff. rewrite goners_T, front_T, Mi. split; [congruence|]. split; intros x; change (mem x (i :: goners M l)) with ((x =? i) || mem x (goners M l)).
  - rewrite K2, K1. destruct (mem x (goners M l)); [now rewrite orb_true_r|]. now rewrite orb_false_r.
  - rewrite P2, P1. destruct (mem x (goners M l)) eqn:Gx; [now rewrite orb_true_r|]. rewrite orb_false_r. destruct (mem x (front M l)) eqn:Fx.
    + destruct (Nat.eqb_spec x i) as [->|]; [|reflexivity]. apply mem_In, front_unmarked in Fx. congruence.
    + destruct (mem x (map root l)) eqn:Rx; [|reflexivity]. exfalso. apply mem_In in Rx. destruct (root_either M l x Rx) as [H|H]; apply mem_In in H; congruence.
Qed.
Lemma project_ok p : forall ts h, NoDup (flat_map ids ts) -> Forall (shows h) ts -> Forall noted ts -> (forall t, In t ts -> par h (root t) = Some p) -> List.length (flat_map ids ts) <= size h ->
  exists h', project p marked nesting (map root ts) h = Some (front M ts, h') /\ eff p ts h h'.
Proof.
  induction ts as [|[i l] ts IH]; intros h N F No P L; [exists h; split; [reflexivity|]; unfold eff; cbn; auto|].
  cbn [map root project]. fold (M i). cbn [flat_map] in N, L. rewrite app_length in L. apply nodup_app in N as (N1 & N2 & Dj). apply Forall_cons_iff in F as [Si F], No as [Noi No]. pose proof (P _ (or_introl eq_refl)) as Pi. cbn in Pi.
  rewrite front_cons. change (T i l :: ts) with ([T i l] ++ ts). destruct (M i) eqn:Mi.
  - destruct (expanded_ok p i l h Mi Si N1 ltac:(lia) Noi) as (h1 & -> & E1). destruct (IH h1) as (h2 & -> & E2).
    + exact N2.
    + apply (forall_keep h); [|exact F]. intros x Hx. apply (eff_kids p [T i l]); [exact E1|]. intros H. cbn [flat_map] in H. rewrite app_nil_r in H. exact (Dj x H Hx).
    + exact No.
    + intros t Ht. destruct E1 as (_ & _ & P1). rewrite P1. destruct (mem (root t) (goners M [T i l])) eqn:Gx.
      * exfalso. apply mem_In, goners_ids in Gx. cbn [flat_map] in Gx. rewrite app_nil_r in Gx. apply (Dj _ Gx). apply in_flat_map. exists t. split; [exact Ht|apply root_in].
      * destruct (mem (root t) (front M [T i l])); [reflexivity|]. apply P. now right.
    + destruct E1 as (-> & _). lia.
    + exists h2. split; [reflexivity|]. now apply (eff_app p _ _ h h1 h2).
  - destruct (IH h N2 F No) as (h2 & -> & E2); [intros t Ht; apply P; now right|lia|]. exists h2. rewrite front_T, Mi. split; [reflexivity|]. apply (eff_app p _ _ h h h2); [now apply eff_unmarked|exact E2].
Qed.
(* filling in one holder *)
Lemma holder_ok h h1 p l : forest h -> shows h (T p l) -> M p = false -> eff p l h h1 ->
  forest (set_kids p (front M l) h1) /\ (forall t, shows h t -> M (root t) = false -> shows (set_kids p (front M l) h1) (at_node p (flat_map (expand M)) t)).
Proof.
  intros G St Mp (Z & K & P). destruct (open_step h (set_kids p (front M l) h1) p M l G St Mp) as [G' T'].
  - exact Z.
  - intros x. cbn. unfold upd. destruct (x =? p); [reflexivity|apply K].
  - intros x. cbn. apply P.
  - split; [exact G'|]. intros t Ht Rt. apply T'; [exact Ht|]. destruct (mem (root t) (goners M l)) eqn:E; [|reflexivity]. apply mem_In, goners_marked in E. congruence.
Qed.
End batch.
