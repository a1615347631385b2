From Coq Require Import List Arith Bool Lia.
From Verif Require Import FinishModel FinishSpec FinishProofs FinishProofs2.
Import ListNotations.

Section fill.
Variables marked nesting : list nat.
Variable h0 : heap.
Let M := fun x => mem x marked.
Hypothesis Nest : forall m c, M m = true -> M c = true -> In c (kids h0 m) -> In m nesting.
Definition only_spec (p : nat) (v : option nat) : Prop := M p = false /\ match v with None => True | Some c => M c = true /\ In c (kids h0 p) /\ (forall c', M c' = true -> In c' (kids h0 p) -> c' = c) end.
Record inv (h : heap) (hs : list (nat * option nat)) : Prop := Inv {
  i_forest : forest h;
  i_marked : forall x, M x = true -> kids h x = kids h0 x \/ kids h x = [];
  i_todo : forall p, In p (map fst hs) -> kids h p = kids h0 p;
  i_done : forall p, M p = false -> ~ In p (map fst hs) -> forall c, In c (kids h p) -> M c = false
}.
Lemma noted_all h hs t : inv h hs -> shows h t -> noted marked nesting t.
Proof.
  intros I St i cs Hi Mi Ni c Hc. rewrite <- (proj1 (shows_nodes h t) St i cs Hi) in Hc. destruct (i_marked _ _ I i Mi) as [E|E]; rewrite E in Hc; [|destruct Hc].
  destruct (mem c marked) eqn:Mc; [|reflexivity]. apply mem_In in Mc. pose proof (Nest i c Mi (proj2 (mem_In _ _) Mc) Hc) as H. apply mem_In in H. congruence.
Qed.
Lemma sized h t : forest h -> shows h t -> List.length (flat_map ids (below t)) <= size h.
Proof.
  intros G St. pose proof (no_dup h t G St) as N. destruct t as [i l]. cbn [below ids] in *. inversion N as [|? ? _ N2]; subst. apply ids_length; [|exact N2]. intros x Hx. apply in_seq. split; [lia|].
  destruct (par h x) as [p|] eqn:Hp; [pose proof (f_size _ G p x Hp); lia|]. exfalso. exact (below_has_parent h (T i l) x G St Hx Hp).
Qed.
Lemma holder_inv h h1 p l hs v : inv h ((p, v) :: hs) -> ~ In p (map fst hs) -> (forall q, In q (map fst hs) -> M q = false) -> M p = false -> shows h (T p l) -> eff marked p l h h1 ->
  inv (set_kids p (front M l) h1) hs.
Proof.
  intros I Np Hs Mp St Ef. destruct (holder_ok marked h h1 p l (i_forest _ _ I) St Mp Ef) as [G' _]. destruct Ef as (Z & K & P). constructor.
  - exact G'.
  - intros x Mx. cbn. unfold upd. destruct (Nat.eqb_spec x p) as [->|Nx]; [congruence|]. rewrite K. fold M. destruct (mem x (goners M l)); [now right|]. exact (i_marked _ _ I x Mx).
  - intros q Hq. cbn. unfold upd. destruct (Nat.eqb_spec q p) as [->|Nx]; [contradiction|]. rewrite K. fold M. destruct (mem q (goners M l)) eqn:Gq; [apply mem_In, goners_marked in Gq; rewrite (Hs q Hq) in Gq; discriminate|]. apply (i_todo _ _ I). now right.
  - intros q Mq Nq c. cbn. unfold upd. destruct (Nat.eqb_spec q p) as [->|Nx]; [apply front_unmarked|]. rewrite K. fold M. destruct (mem q (goners M l)); [intros []|]. apply (i_done _ _ I q Mq). cbn. intuition congruence.
Qed.
Lemma only_front l a c b : map root l = a ++ c :: b -> (forall x, In x (a ++ b) -> M x = false) -> M c = true ->
  exists la gs lb, l = la ++ T c gs :: lb /\ front M l = a ++ front M [T c gs] ++ b /\ goners M l = goners M [T c gs] /\ map root la = a /\ map root lb = b.
Proof.
  intros E U Mc. apply map_eq_app in E as (la & lb & -> & E1 & E2). destruct lb as [|[j gs] lb]; [discriminate|]. injection E2 as -> E2. exists la, gs, lb. split; [reflexivity|].
  destruct (calm_front M la) as [F1 G1]; [intros x Hx; apply U; apply in_app_iff; rewrite E1 in Hx; now left|]. destruct (calm_front M lb) as [F2 G2]; [intros x Hx; apply U; apply in_app_iff; rewrite E2 in Hx; now right|].
  change (T c gs :: lb) with ([T c gs] ++ lb). rewrite !front_app, !goners_app, F1, F2, G1, G2, E1, E2, app_nil_r. auto.
Qed.
Lemma fill_ok : forall hs h, inv h hs -> NoDup (map fst hs) -> (forall p v, In (p, v) hs -> only_spec p v) ->
  exists h', fill marked nesting hs h = Some h' /\ inv h' [] /\ (forall t, shows h t -> M (root t) = false -> exists t', shows h' t' /\ root t' = root t /\ unwrapped M t' = unwrapped M t).
Proof.
  induction hs as [|[p v] hs IH]; intros h I N Sp.
  - exists h. split; [reflexivity|]. split; [exact I|]. intros t St _. exists t. auto.
  - inversion N as [|? ? Np N2]; subst. cbn [fst] in Np. destruct (Sp p v (or_introl eq_refl)) as [Mp Sv]. pose proof (i_forest _ _ I) as G.
    assert (Hs : forall q, In q (map fst hs) -> M q = false). { intros q Hq. apply in_map_iff in Hq as ([q' w] & <- & Hq). exact (proj1 (Sp q' w (or_intror Hq))). }
    assert (Kp : kids h p = kids h0 p) by (apply (i_todo _ _ I); now left).
    destruct (has_tree h G p) as ([p0 l] & Ep & St). cbn in Ep. subst p0. assert (Kl : kids h p = map root l) by (apply shows_T in St; tauto). assert (Fl : Forall (shows h) l) by (apply shows_T in St; tauto).
    pose proof (sized h _ G St) as Sz. cbn [below] in Sz. pose proof (no_dup h _ G St) as Nd. cbn [ids] in Nd. inversion Nd as [|? ? _ Nl]; subst.
    assert (Pl : forall t, In t l -> par h (root t) = Some p) by (intros t Ht; apply (f_links _ G); rewrite Kl; now apply in_map).
    assert (exists h1, eff marked p l h h1 /\ fill marked nesting ((p, v) :: hs) h = fill marked nesting hs (set_kids p (front M l) h1)) as (h1 & Ef & ->).
    { cbn [fill]. destruct v as [c|].
      - destruct Sv as (Mc & Hc & Only). rewrite <- Kp in Hc. destruct (index_some _ _ Hc) as (i & Ei). rewrite Ei. destruct (index_spec _ _ _ Ei) as (a & b & Ek & <- & _). rewrite Ek.
        pose proof (f_once _ G p) as No. rewrite Ek in No. pose proof (NoDup_remove_2 _ _ _ No) as Nc.
        destruct (only_front l a c b) as (la & gs & lb & El & Fr & Go & Ea & Eb); [congruence| |exact Mc|].
        { intros x Hx. destruct (M x) eqn:Mx; [|reflexivity]. exfalso. apply Nc. rewrite <- (Only x Mx); [exact Hx|]. rewrite <- Kp, Ek. apply in_app_iff in Hx as [Hx|Hx]; apply in_app_iff; [now left|right; now right]. }
        assert (Ht : In (T c gs) l) by (rewrite El; apply in_app_iff; right; now left).
        rewrite Forall_forall in Fl. destruct (expanded_ok marked nesting p c gs h Mc (Fl _ Ht)) as (h1 & -> & Ef).
        + rewrite El, flat_map_app in Nl. apply nodup_app in Nl as (_ & Nl & _). cbn [flat_map] in Nl. apply nodup_app in Nl. tauto.
        + rewrite El, flat_map_app, app_length in Sz. cbn [flat_map] in Sz. rewrite app_length in Sz. lia.
        + apply (noted_all h ((p, Some c) :: hs)); [exact I|auto].
        + exists h1. split.
          * destruct Ef as (Z & K & P). unfold eff. fold M in K, P |- *. rewrite Go, Fr. split; [exact Z|]. split; [exact K|]. intros x. rewrite P. destruct (mem x (goners M [T c gs])) eqn:Gx; [reflexivity|].
            rewrite !mem_app. destruct (mem x (front M [T c gs])); [now rewrite orb_true_r|]. cbn [orb]. destruct (mem x a || mem x b) eqn:Ex; [|reflexivity].
            apply (f_links _ G). rewrite Ek. apply orb_true_iff in Ex. rewrite !mem_In in Ex. rewrite in_app_iff. cbn. tauto.
          * rewrite splice_eq, Fr. reflexivity.
      - rewrite Kl. destruct (project_ok marked nesting p l h Nl Fl) as (h1 & -> & Ef); [|exact Pl|exact Sz|exists h1; split; [exact Ef|reflexivity]].
        rewrite Forall_forall in Fl |- *. intros t Ht. exact (noted_all h _ t I (Fl t Ht)). }
    pose proof (holder_inv h h1 p l hs v I Np Hs Mp St Ef) as I1. destruct (holder_ok marked h h1 p l G St Mp Ef) as [_ T1].
    destruct (IH _ I1 N2) as (h' & E' & I' & T'); [intros q w Hq; apply Sp; now right|]. exists h'. split; [exact E'|]. split; [exact I'|].
    intros t Ht Rt. destruct (T' _ (T1 t Ht Rt)) as (t' & St' & Rt' & Mt'); [now rewrite at_root|]. exists t'. split; [exact St'|]. split; [now rewrite Rt', at_root|]. rewrite Mt'. apply unwrapped_at. auto.
Qed.
End fill.

(* survey *)
Section survey.
Variable marked : list nat.
Variable h : heap.
Record sinv (done : list nat) (hs : list (nat * option nat)) (ns : list nat) : Prop := SInv {
  s_nest : forall n p, In n done -> par h n = Some p -> mem p marked = true -> In p ns;
  s_once : NoDup (map fst hs);
  s_plain : forall p v, In (p, v) hs -> mem p marked = false;
  s_all : forall n p, In n done -> par h n = Some p -> mem p marked = false -> In p (map fst hs);
  s_only : forall p c, In (p, Some c) hs -> In c done /\ par h c = Some p /\ (forall c', In c' done -> par h c' = Some p -> c' = c)
}.
Lemma put_keys p n hs : map fst (put_holder p n hs) = if mem p (map fst hs) then map fst hs else map fst hs ++ [p].
Proof.
  induction hs as [|[q v] hs IH]; [reflexivity|]. cbn [put_holder map fst mem existsb]. rewrite (Nat.eqb_sym p q). destruct (Nat.eqb_spec q p); cbn; [reflexivity|]. rewrite IH. fold (mem p (map fst hs)). destruct (mem p (map fst hs)); reflexivity.
Qed.
Lemma put_in p n hs q v : NoDup (map fst hs) -> In (q, v) (put_holder p n hs) -> (q <> p /\ In (q, v) hs) \/ (q = p /\ v = None /\ In p (map fst hs)) \/ (q = p /\ v = Some n /\ ~ In p (map fst hs)).
Proof.
  induction hs as [|[r w] hs IH]; cbn [put_holder map fst]; intros N.
  - intros [[= <- <-]|[]]. right. right. auto.
  - inversion N as [|? ? Nr N2]; subst. destruct (Nat.eqb_spec r p) as [->|Nrp].
    + intros [[= <- <-]|H]; [right; left; repeat split; now left|]. left. split; [|now right]. intros ->. apply Nr. apply in_map_iff. exists (p, v). auto.
    + intros [[= <- <-]|H]; [left; split; [exact Nrp|now left]|]. destruct (IH N2 H) as [[? ?]|[(? & ? & ?)|(? & ? & ?)]]; [left; split; [assumption|now right]|right; left; repeat split; auto; now right|right; right; repeat split; auto].
      cbn. intros [?|?]; [congruence|contradiction].
Qed.
Lemma survey_ok l : forall done hs ns, sinv done hs ns -> let '(hs', ns') := survey marked l h hs ns in sinv (done ++ l) hs' ns'.
Proof.
  induction l as [|n l IH]; intros done hs ns I; [cbn; now rewrite app_nil_r|]. cbn [survey].
  replace (done ++ n :: l) with ((done ++ [n]) ++ l) by (rewrite <- app_assoc; reflexivity).
  destruct (par h n) as [p|] eqn:Hp; [destruct (mem p marked) eqn:Mp|].
  - apply IH. destruct I as [I1 I2 I3 I4 I5]. constructor; auto.
    + intros m q Hm Hq Mq. apply in_app_iff in Hm as [Hm|[<-|[]]]; [right; eauto|left; congruence].
    + intros m q Hm Hq Mq. apply in_app_iff in Hm as [Hm|[<-|[]]]; [eauto|congruence].
    + intros q c Hc. destruct (I5 q c Hc) as (H1 & H2 & H3). split; [apply in_app_iff; now left|]. split; [exact H2|]. intros c' Hc' Hq. apply in_app_iff in Hc' as [Hc'|[<-|[]]]; [auto|]. apply I3 in Hc. congruence.
  - apply IH. destruct I as [I1 I2 I3 I4 I5]. constructor.
    + intros m q Hm Hq Mq. apply in_app_iff in Hm as [Hm|[<-|[]]]; [eauto|congruence].
    + rewrite put_keys. destruct (mem p (map fst hs)) eqn:Ep; [exact I2|]. apply nodup_join; [exact I2|constructor; [intros []|constructor]|]. intros x Hx [<-|[]]. apply mem_In in Hx. congruence.
    + intros q v Hq. apply (put_in _ _ _ _ _ I2) in Hq as [[_ Hq]|[(-> & _)|(-> & _)]]; eauto.
    + intros m q Hm Hq Mq. rewrite put_keys. destruct (mem p (map fst hs)) eqn:Ep; apply in_app_iff in Hm as [Hm|[<-|[]]].
      * eauto.
      * apply mem_In in Ep. congruence.
      * apply in_app_iff. left. eauto.
      * apply in_app_iff. right. left. congruence.
    + intros q c Hq. apply (put_in _ _ _ _ _ I2) in Hq as [[Nq Hq]|[(_ & [=] & _)|(-> & [= <-] & Np)]].
      * destruct (I5 q c Hq) as (H1 & H2 & H3). split; [apply in_app_iff; now left|]. split; [exact H2|]. intros c' Hc' Hc. apply in_app_iff in Hc' as [Hc'|[<-|[]]]; [auto|congruence].
      * split; [apply in_app_iff; right; now left|]. split; [exact Hp|]. intros c' Hc' Hc. apply in_app_iff in Hc' as [Hc'|[<-|[]]]; [|reflexivity]. exfalso. apply Np. exact (I4 c' p Hc' Hc Mp).
  - apply IH. destruct I as [I1 I2 I3 I4 I5]. constructor; auto.
    + intros m q Hm Hq Mq. apply in_app_iff in Hm as [Hm|[<-|[]]]; [eauto|congruence].
    + intros m q Hm Hq Mq. apply in_app_iff in Hm as [Hm|[<-|[]]]; [eauto|congruence].
    + intros q c Hc. destruct (I5 q c Hc) as (H1 & H2 & H3). split; [apply in_app_iff; now left|]. split; [exact H2|]. intros c' Hc' Hq. apply in_app_iff in Hc' as [Hc'|[<-|[]]]; [auto|congruence].
Qed.
End survey.

Lemma clean_below (M : nat -> bool) h t : forest h -> shows h t -> M (root t) = false -> (forall p, M p = false -> forall c, In c (kids h p) -> M c = false) -> forall x, In x (ids t) -> M x = false.
Proof.
  intros G St Rt C. induction t as [i l IH] using tree_ind'. rewrite Forall_forall in IH. apply shows_T in St as [K F]. rewrite Forall_forall in F. cbn [root] in Rt. intros x [<-|H]; [exact Rt|]. apply in_flat_map in H as (t & Ht & H).
  apply (IH t Ht (F t Ht)); [|exact H]. apply (C i Rt). rewrite K. now apply in_map.
Qed.
Lemma all_at_once l h t : forest h -> shows h t -> ~ In (root t) l -> exists h', unwrap_batch l h = Some h' /\ forest h' /\ shows h' (unwrapped (fun x => mem x l) t).
Proof.
  intros G St Rt. unfold unwrap_batch. pose proof (survey_ok l h l [] [] []) as Sv. destruct (survey l l h [] []) as [hs ns]. cbn [app] in Sv.
  assert (Rt' : mem (root t) l = false) by (destruct (mem (root t) l) eqn:E; [apply mem_In in E; contradiction|reflexivity]).
  destruct Sv as [S1 S2 S3 S4 S5]; [constructor; cbn; try tauto; constructor|].
  destruct (fill_ok l ns h) with (hs := hs) (h := h) as (h' & E & I & T').
  - intros m c Mm Mc Hc. apply (f_links _ G) in Hc. apply mem_In in Mc. exact (S1 c m Mc Hc Mm).
  - constructor; auto. intros p Mp Np c Hc. destruct (mem c l) eqn:Mc; [|reflexivity]. exfalso. apply Np. apply (f_links _ G) in Hc. apply mem_In in Mc. exact (S4 c p Mc Hc Mp).
  - exact S2.
  - intros p v Hv. split; [exact (S3 p v Hv)|]. destruct v as [c|]; [|exact Logic.I]. destruct (S5 p c Hv) as (H1 & H2 & H3). split; [now apply mem_In|]. split; [now apply (f_links _ G)|]. intros c' Mc' Hc'. apply mem_In in Mc'. apply (f_links _ G) in Hc'. auto.
  - exists h'. split; [exact E|]. split; [exact (i_forest _ _ _ _ I)|]. destruct (T' t St Rt') as (t' & St' & Rt2 & Mt'). rewrite <- Mt'. rewrite unwrapped_id; [exact St'|].
    intros x Hx. refine (clean_below (fun x => mem x l) h' t' (i_forest _ _ _ _ I) St' _ _ x _).
    + now rewrite Rt2.
    + intros p Mp. exact (i_done _ _ _ _ I p Mp (fun H => H)).
    + destruct t' as [i m]. right. exact Hx.
Qed.
Lemma unwrap_recorded_ok l h t : forest h -> shows h t -> ~ In (root t) l -> exists h', unwrap_recorded l h = Some h' /\ forest h' /\ shows h' (unwrapped (fun x => mem x l) t).
Proof.
  intros G St Rt. unfold unwrap_recorded. destruct (List.length l <? 32); [|now apply all_at_once].
  destruct (one_by_one (rev l) h t G St) as (h' & E & G' & S'); [now rewrite <- in_rev|]. exists h'. split; [exact E|]. split; [exact G'|].
  assert (unwrapped (fun x => mem x (rev l)) t = unwrapped (fun x => mem x l) t) as <-; [|exact S'].
  assert (Em : forall x, mem x (rev l) = mem x l). { intros x. destruct (mem x l) eqn:E1; [apply mem_In in E1; apply mem_In; now apply -> in_rev|]. destruct (mem x (rev l)) eqn:E2; [|reflexivity]. apply mem_In, in_rev, mem_In in E2. congruence. }
  unfold unwrapped. f_equal. assert (W : forall u, hoist (fun x => mem x (rev l)) u = hoist (fun x => mem x l) u).
  { induction u as [i m IH] using tree_ind'. cbn. rewrite Em. assert (flat_map (hoist (fun x => mem x (rev l))) m = flat_map (hoist (fun x => mem x l)) m) as ->; [|reflexivity]. induction IH as [|u m Hu _ IHm]; [reflexivity|]. cbn. now rewrite Hu, IHm. }
  induction (below t) as [|u m IHm]; [reflexivity|]. cbn. now rewrite W, IHm.
Qed.
(* the fragment context *)
Lemma finish_context_ok root0 c h t : forest h -> shows h t -> root t = root0 -> In c (kids h root0) -> c <> root0 ->
  forest (finish_context root0 c h) /\ shows (finish_context root0 c h) (unwrapped (Nat.eqb c) t).
Proof.
  intros G St Rt Hc Nc. destruct t as [i l]. cbn in Rt. subst i. assert (Hp : par h c = Some root0) by now apply (f_links _ G).
  destruct (unwrap_node_ok h root0 c G Hp) as (h' & E & G' & P' & _ & T'). pose proof (T' _ St) as S'. cbn [root] in S'. specialize (S' ltac:(congruence)).
  cbn [at_node] in S'. rewrite Nat.eqb_refl in S'.
  (* the same heap, pointwise *)
  unfold unwrap_node in E. rewrite Hp in E. unfold finish_context. destruct (index_of c (kids h root0)) as [k|] eqn:Ei; [|discriminate].
  set (g := set_par c None (set_kids c [] (set_kids root0 (splice k (kids h c) (kids h root0)) (adopt (kids h c) root0 h)))).
  assert (Kg : forall x, kids g x = kids h' x).
  { intros x. injection E as <-. unfold g. cbn [set_par set_kids kids]. rewrite kids_adopt. destruct (kids h c) as [|y ys] eqn:Ec.
    - cbn [set_par set_kids kids]. unfold upd. destruct (Nat.eqb_spec x c) as [->|]; [|reflexivity]. destruct (Nat.eqb_spec c root0); [contradiction|reflexivity].
    - cbn [set_par set_kids kids]. rewrite kids_adopt. cbn [set_kids kids]. unfold upd. destruct (Nat.eqb_spec x c) as [->|]; [|reflexivity]. destruct (Nat.eqb_spec c root0); [contradiction|reflexivity]. }
  assert (Pg : forall x, par g x = par h' x).
  { intros x. injection E as <-. unfold g. cbn [set_par set_kids par]. unfold upd. destruct (x =? c); [destruct (kids h c); reflexivity|]. rewrite par_adopt. destruct (kids h c) as [|y ys]; [reflexivity|]. cbn [set_par set_kids par]. rewrite par_adopt. reflexivity. }
  assert (Zg : size g = size h'). { injection E as <-. unfold g. cbn [set_par set_kids size]. rewrite size_adopt. destruct (kids h c); [reflexivity|]. cbn [set_par set_kids size]. now rewrite size_adopt. }
  split.
  - constructor.
    + intros p x. rewrite Kg, Pg. apply (f_links _ G').
    + intros p. rewrite Kg. apply (f_once _ G').
    + intros p x. rewrite Pg, Zg. apply (f_size _ G').
    + destruct (f_depth _ G') as (d & b & Hd & Hb). exists d, b. split; [|exact Hb]. intros p x. rewrite Pg. apply Hd.
  - apply (shows_keep h'); [intros x _; apply Kg|].
    assert (Et : unwrapped (Nat.eqb c) (T root0 l) = unwrapped (Nat.eqb c) (T root0 (flat_map (expand (Nat.eqb c)) l))) by (unfold unwrapped; cbn [root below]; now rewrite hoist_expand). rewrite Et.
    rewrite unwrapped_id; [exact S'|]. cbn [below]. intros x Hx. destruct (Nat.eqb_spec c x) as [<-|]; [|reflexivity]. exfalso. exact (below_has_parent h' (T root0 _) c G' S' Hx P').
Qed.
