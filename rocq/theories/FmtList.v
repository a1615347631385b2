(* C53: the list with its segments *)
From Coq Require Import ZArith Lia ZifyBool ZifyN ZifyNat.
From Verif Require Import Str StrFacts FmtModel FmtSpec FmtProofs.
Open Scope N_scope.

Definition live (es : list entry) : list entry := filter e_live es.
Definition chunk (es : list entry) (g : segment) : Prop := (forall e, In e es -> e_seg e = g_id g) /\ seg_ok g (live es).
Inductive layout : list slot -> list segment -> Prop :=
| lay_none : layout [] []
| lay_base es g : chunk es g -> layout (map Some es) [g]
| lay_mark act sg es g : layout act sg -> chunk es g -> layout (act ++ None :: map Some es) (sg ++ [g]).
Definition ids (l : list slot) : list N := flat_map (fun s => match s with Some e => [e_id e] | None => [] end) l.
Definition dead (l : list slot) : Z := Z.of_nat (List.length (filter (fun s => negb (stays s)) l)).
Record inv (f : fmt) : Prop := {
  i_lay : layout (active f) (segs f);
  i_segs : NoDup (map g_id (segs f));
  i_snext : forall g, In g (segs f) -> g_id g < s_next f;
  i_ids : NoDup (ids (active f));
  i_enext : forall i, In i (ids (active f)) -> i < e_next f;
  i_dead : retired f = dead (active f) }.

Lemma ids_app a b : ids (a ++ b) = ids a ++ ids b.
Proof. unfold ids. apply flat_map_app. Qed.
Lemma ids_some es : ids (map Some es) = map e_id es.
Proof. induction es as [|e es IH]; [reflexivity|]. cbn [map ids flat_map app]. f_equal. exact IH. Qed.
Lemma dead_app a b : dead (a ++ b) = (dead a + dead b)%Z.
Proof. unfold dead. rewrite filter_app, app_length. lia. Qed.
Lemma live_app a b : live (a ++ b) = live a ++ live b.
Proof. apply filter_app. Qed.
Lemma view_app a b : view (a ++ b) = view a ++ view b.
Proof. induction a as [|[e|] a IH]; cbn [app view]; [reflexivity| |rewrite IH; reflexivity]. rewrite IH. destruct (e_live e); reflexivity. Qed.
Definition it (e : entry) : item := AElem (e_id e) (e_name e) (signature e).
Lemma view_some es : view (map Some es) = map it (live es).
Proof. induction es as [|e es IH]; [reflexivity|]. cbn [map view]. unfold live. cbn [filter]. rewrite IH. destruct (e_live e); reflexivity. Qed.
Lemma no_marker es : ~ In AMarker (map it es).
Proof. intros I. apply in_map_iff in I as (e & Q & _). discriminate Q. Qed.
Lemma no_none es : ~ In None (map (@Some entry) es).
Proof. intros I. apply in_map_iff in I as (e & Q & _). discriminate Q. Qed.
Definition closed_left (pre : list slot) : Prop := pre = [] \/ exists p, pre = p ++ [None].
Definition closed_right (post : list slot) (sg1 : list segment) : Prop := (post = [] /\ sg1 = []) \/ exists p, post = None :: p.
Lemma closed_app pre p : closed_left pre -> closed_left (p ++ pre) \/ pre = [].
Proof. intros [->|(q & ->)]; [right; reflexivity|]. left. right. exists (p ++ q). rewrite app_assoc. reflexivity. Qed.
Lemma after_closed pre es : closed_left pre -> after_marker (view (pre ++ map Some es)) (map it (live es)).
Proof.
  intros [->|(p & ->)]; rewrite view_app, view_some; [apply am_none; apply no_marker|]. rewrite view_app. cbn [view]. rewrite <- app_assoc. cbn [app]. apply am_some. apply no_marker.
Qed.
(* the chunk an entry is in *)
Lemma some_split (es : list entry) A e B : map Some es = A ++ Some e :: B -> exists a b, es = a ++ e :: b /\ A = map Some a /\ B = map Some b.
Proof.
  revert es. induction A as [|s A IH]; intros es H; cbn [app] in H.
  - destruct es as [|e0 es]; [discriminate H|]. cbn [map] in H. exists [], es. assert (e0 = e /\ map Some es = B) as [-> <-] by (split; congruence). repeat split.
  - destruct es as [|e0 es]; [discriminate H|]. cbn [map] in H. assert (Q : map Some es = A ++ Some e :: B) by congruence. destruct (IH _ Q) as (a & b & -> & -> & ->). exists (e0 :: a), b. split; [reflexivity|]. split; [|reflexivity]. cbn [map]. f_equal. congruence.
Qed.
Lemma app_mid_cases {T} (a b A B : list T) x y : a ++ x :: b = A ++ y :: B -> (exists c, A = a ++ x :: c /\ b = c ++ y :: B) \/ (a = A /\ x = y /\ b = B) \/ (exists c, a = A ++ y :: c /\ B = c ++ x :: b).
Proof.
  revert A. induction a as [|z a IH]; intros A H; destruct A as [|w A]; cbn [app] in H.
  - right. left. repeat split; congruence.
  - left. exists A. split; [cbn [app]; congruence|congruence].
  - right. right. exists a. split; [cbn [app]; congruence|congruence].
  - assert (Q : a ++ x :: b = A ++ y :: B) by congruence. assert (z = w) as -> by congruence. destruct (IH _ Q) as [(c & -> & ->)|[(-> & -> & ->)|(c & -> & ->)]]; [left; exists c; split; reflexivity|right; left; repeat split|right; right; exists c; split; reflexivity].
Qed.
Lemma lay_at act sg : layout act sg -> forall A e B, act = A ++ Some e :: B -> exists pre a b post sg0 g sg1,
  A = pre ++ map Some a /\ B = map Some b ++ post /\ sg = sg0 ++ g :: sg1 /\ chunk (a ++ e :: b) g /\ closed_left pre /\ closed_right post sg1 /\
  forall es' g', chunk es' g' -> layout (pre ++ map Some es' ++ post) (sg0 ++ g' :: sg1).
Proof.
  induction 1 as [|es g C|act sg es g L IH C]; intros A e B E.
  - destruct A; discriminate E.
  - apply some_split in E as (a & b & -> & -> & ->). exists [], a, b, [], [], g, []. rewrite !app_nil_r. split; [reflexivity|]. split; [reflexivity|]. split; [reflexivity|]. split; [exact C|]. split; [left; reflexivity|]. split; [left; split; reflexivity|]. intros es' g' C'. rewrite app_nil_r. apply lay_base. exact C'.
  - apply app_mid_cases in E as [(c & -> & E)|[(_ & Q & _)|(c & E & ->)]]; [|discriminate Q|].
    + apply some_split in E as (a & b & -> & -> & ->). exists (act ++ [None]), a, b, [], sg, g, []. rewrite !app_nil_r. split; [rewrite <- app_assoc; reflexivity|]. split; [reflexivity|]. split; [reflexivity|]. split; [exact C|]. split; [right; exists act; reflexivity|]. split; [left; split; reflexivity|]. intros es' g' C'. rewrite app_nil_r, <- app_assoc. apply lay_mark; assumption.
    + destruct (IH _ _ _ E) as (pre & a & b & post & sg0 & g0 & sg1 & -> & -> & -> & C0 & CL & CR & R). exists pre, a, b, (post ++ None :: map Some es), sg0, g0, (sg1 ++ [g]). split; [reflexivity|]. split; [rewrite <- app_assoc; reflexivity|]. split; [rewrite <- app_assoc; reflexivity|]. split; [exact C0|]. split; [exact CL|]. split.
      * right. destruct CR as [[-> _]|(p & ->)]; [eexists; reflexivity|eexists; reflexivity].
      * intros es' g' C'. specialize (R es' g' C'). rewrite !app_assoc in *. change (sg0 ++ g' :: sg1) with (sg0 ++ [g'] ++ sg1) in R. pose proof (lay_mark _ _ _ _ R C) as K. rewrite <- !app_assoc in K. rewrite <- !app_assoc. exact K.
Qed.
Lemma last_seg_app sg g : last_seg (sg ++ [g]) = Some g.
Proof. induction sg as [|x sg IH]; [reflexivity|]. cbn [app last_seg]. destruct (sg ++ [g]) eqn:E; [destruct sg; discriminate E|]. exact IH. Qed.
Lemma last_seg_some sg g : last_seg sg = Some g -> exists sg0, sg = sg0 ++ [g].
Proof.
  destruct sg as [|x sg]; [discriminate|]. destruct (exists_last (l := x :: sg)) as (l & y & E); [discriminate|]. rewrite E, last_seg_app. intros H. exists l. congruence.
Qed.
Lemma last_seg_none sg : last_seg sg = None -> sg = [].
Proof. destruct sg as [|x sg]; [reflexivity|]. destruct (exists_last (l := x :: sg)) as (l & y & E); [discriminate|]. rewrite E, last_seg_app. discriminate. Qed.
Lemma set_last_app sg g g' : set_last g' (sg ++ [g]) = sg ++ [g'].
Proof. unfold set_last. rewrite removelast_last. reflexivity. Qed.
Lemma lay_last act sg : layout act sg -> (act = [] /\ sg = []) \/ exists pre es sg0 g, act = pre ++ map Some es /\ sg = sg0 ++ [g] /\ chunk es g /\ closed_left pre /\ forall es' g', chunk es' g' -> layout (pre ++ map Some es') (sg0 ++ [g']).
Proof.
  intros [|es g C|act0 sg0 es g L C]; [left; auto| |]; right.
  - exists [], es, [], g. split; [reflexivity|]. split; [reflexivity|]. split; [exact C|]. split; [left; reflexivity|]. intros es' g' C'. apply lay_base. exact C'.
  - exists (act0 ++ [None]), es, sg0, g. split; [rewrite <- app_assoc; reflexivity|]. split; [reflexivity|]. split; [exact C|]. split; [right; exists act0; reflexivity|]. intros es' g' C'. rewrite <- app_assoc. apply lay_mark; assumption.
Qed.
Lemma on_seg_mid sg0 g sg1 f : NoDup (map g_id (sg0 ++ g :: sg1)) -> on_seg (g_id g) f (sg0 ++ g :: sg1) = option_map (fun g' => sg0 ++ g' :: sg1) (f g).
Proof.
  induction sg0 as [|x sg0 IH]; cbn [app on_seg map]; intros H; [rewrite N.eqb_refl; reflexivity|]. inversion H as [|? ? N1 H1]; subst. destruct (N.eqb_spec (g_id x) (g_id g)) as [Q|_].
  - exfalso. apply N1. rewrite Q. apply in_map. apply in_or_app. right. left. reflexivity.
  - rewrite IH by exact H1. destruct (f g); reflexivity.
Qed.
Lemma last_is_app id l s : last_is id (l ++ [s]) = match s with Some e => e_id e =? id | None => false end.
Proof.
  induction l as [|x l IH]; [destruct s; reflexivity|]. cbn [app last_is]. destruct (l ++ [s]) eqn:E; [destruct l; discriminate E|]. rewrite IH. destruct x; reflexivity.
Qed.
Definition killed (e : entry) : entry := Entry (e_id e) (e_name e) (e_attrs e) (e_sig e) (e_seg e) false.
Lemma map_kill_other id l : ~ In id (ids l) -> map (kill id) l = l.
Proof.
  induction l as [|[e|] l IH]; cbn [map ids flat_map app]; intros H; [reflexivity| |f_equal; apply IH; exact H]. cbn [In] in H. rewrite IH by tauto. f_equal. cbn [kill]. destruct (N.eqb_spec (e_id e) id); [tauto|reflexivity].
Qed.
Lemma map_kill A e B : NoDup (ids (A ++ Some e :: B)) -> map (kill (e_id e)) (A ++ Some e :: B) = A ++ Some (killed e) :: B.
Proof.
  rewrite ids_app. cbn [ids flat_map app]. intros H. apply NoDup_remove_2 in H. rewrite in_app_iff in H. rewrite map_app. cbn [map kill]. rewrite N.eqb_refl. rewrite !map_kill_other by (fold (ids B) in H; tauto). reflexivity.
Qed.
Lemma seg_ids_same sg0 g g' sg1 : g_id g' = g_id g -> map g_id (sg0 ++ g' :: sg1) = map g_id (sg0 ++ g :: sg1).
Proof. intros E. rewrite !map_app. cbn [map]. rewrite E. reflexivity. Qed.
Lemma snext_same f sg0 g g' sg1 : (forall x, In x (sg0 ++ g :: sg1) -> g_id x < f) -> g_id g' = g_id g -> forall x, In x (sg0 ++ g' :: sg1) -> g_id x < f.
Proof. intros H E x I. apply in_app_or in I as [I|[<-|I]]; [apply H; apply in_or_app; auto|rewrite E; apply H; apply in_or_app; right; left; reflexivity|apply H; apply in_or_app; right; right; exact I]. Qed.
Lemma chunk_kill a e b g g' : chunk (a ++ e :: b) g -> seg_ok g' (live a ++ live b) -> g_id g' = g_id g -> chunk (a ++ killed e :: b) g'.
Proof.
  intros [C1 C2] H E. split.
  - intros x I. rewrite E. apply in_app_or in I as [I|[<-|I]]; [apply C1; apply in_or_app; auto|apply (C1 e); apply in_or_app; right; left; reflexivity|apply C1; apply in_or_app; right; right; exact I].
  - rewrite live_app. unfold live at 2. cbn [filter killed e_live]. exact H.
Qed.
Lemma retire_ok f pre a e b post sg0 g sg1 : inv f -> active f = pre ++ map Some (a ++ e :: b) ++ post -> segs f = sg0 ++ g :: sg1 -> chunk (a ++ e :: b) g ->
  (forall es' g', chunk es' g' -> layout (pre ++ map Some es' ++ post) (sg0 ++ g' :: sg1)) -> e_live e = true ->
  exists es' g' r, retire e f = Some (Fmt (pre ++ map Some es' ++ post) (sg0 ++ g' :: sg1) r (e_next f) (s_next f)) /\ chunk es' g' /\ g_id g' = g_id g /\ live es' = live a ++ live b /\
    inv (Fmt (pre ++ map Some es' ++ post) (sg0 ++ g' :: sg1) r (e_next f) (s_next f)).
Proof.
  intros [I1 I2 I3 I4 I5 I6] EA ES C R Lv. rewrite EA in *. rewrite ES in *. destruct C as [C1 C2].
  assert (Es : e_seg e = g_id g) by (apply C1; apply in_or_app; right; left; reflexivity).
  assert (El : live (a ++ e :: b) = live a ++ e :: live b) by (rewrite live_app; unfold live at 2; cbn [filter]; rewrite Lv; reflexivity). rewrite El in C2.
  assert (Ids : ids (pre ++ map Some (a ++ e :: b) ++ post) = (ids pre ++ map e_id a) ++ e_id e :: map e_id b ++ ids post) by (rewrite !ids_app, ids_some, map_app; cbn [map]; rewrite <- !app_assoc; reflexivity).
  assert (U : forall x, In x (a ++ b) -> e_id x <> e_id e).
  { intros x I Q. rewrite Ids in I4. apply NoDup_remove_2 in I4. apply I4. rewrite <- Q. apply in_app_or in I as [I|I]; apply (in_map e_id) in I; rewrite !in_app_iff; auto. }
  destruct (seg_retire_ok g (live a) e (live b) C2) as (g' & Eg & Hg & Ig).
  { intros x I. apply U. apply in_app_or in I as [I|I]; unfold live in I; apply filter_In in I as [I _]; apply in_or_app; auto. }
  unfold retire. rewrite ES, Es, (on_seg_mid sg0 g sg1 _ I2), Eg. cbn [option_map].
  assert (ND : NoDup (ids (pre ++ map Some (a ++ b) ++ post)) /\ forall i, In i (ids (pre ++ map Some (a ++ b) ++ post)) -> i < e_next f).
  { assert (Q : ids (pre ++ map Some (a ++ b) ++ post) = (ids pre ++ map e_id a) ++ map e_id b ++ ids post) by (rewrite !ids_app, ids_some, map_app; rewrite <- !app_assoc; reflexivity). rewrite Q. rewrite Ids in I4, I5. split; [exact (NoDup_remove_1 _ _ _ I4)|]. intros i I. apply I5. apply in_app_or in I as [I|I]; apply in_or_app; [left; exact I|right; right; exact I]. }
  assert (Dd : forall x, dead (pre ++ map Some (a ++ x :: b) ++ post) = (dead (pre ++ map Some (a ++ b) ++ post) + if e_live x then 0 else 1)%Z).
  { intros x. rewrite !map_app. cbn [map]. rewrite !dead_app. change (Some x :: map Some b) with ([Some x] ++ map Some b). rewrite dead_app. assert (D1 : dead [Some x] = if e_live x then 0%Z else 1%Z) by (unfold dead; cbn [filter stays]; destruct (e_live x); reflexivity). rewrite D1. destruct (e_live x); lia. }
  rewrite (Dd e), Lv in I6. destruct (map Some b ++ post) as [|s0 t0] eqn:Et.
  - apply app_eq_nil in Et as [Eb ->]. assert (b = []) as -> by (destruct b; [reflexivity|discriminate Eb]). clear Eb. rewrite EA.
    assert (Q : pre ++ map Some (a ++ [e]) ++ [] = (pre ++ map Some a) ++ [Some e]) by (rewrite app_nil_r, map_app, <- app_assoc; reflexivity). rewrite Q, last_is_app, N.eqb_refl, removelast_last.
    exists a, g', (retired f). rewrite !app_nil_r in *. split; [reflexivity|]. assert (Ca : chunk a g').
    { split; [intros x I; rewrite Ig; apply C1; apply in_or_app; auto|]. exact Hg. }
    split; [exact Ca|]. split; [exact Ig|]. split; [try (change (live []) with (@nil entry); rewrite app_nil_r); reflexivity|]. split; cbn [active segs retired e_next s_next].
    + specialize (R a g' Ca). rewrite app_nil_r in R. exact R.
    + rewrite (seg_ids_same _ _ _ _ Ig). exact I2.
    + exact (snext_same _ _ _ _ _ I3 Ig).
    + exact (proj1 ND).
    + exact (proj2 ND).
    + rewrite I6. lia.
  - assert (Q : exists X s, active f = X ++ [s] /\ (forall x, s = Some x -> e_id x <> e_id e)).
    { destruct (exists_last (l := s0 :: t0)) as (Y & s & EY); [discriminate|]. rewrite EY in Et. exists (pre ++ map Some a ++ Some e :: Y), s. split.
      - rewrite EA, map_app. cbn [map]. rewrite <- !app_assoc. cbn [app]. rewrite Et. reflexivity.
      - intros x -> Q. rewrite Ids in I4. apply NoDup_remove_2 in I4. apply I4. rewrite <- Q. assert (In (e_id x) (ids (map Some b ++ post))) by (rewrite Et, ids_app; apply in_or_app; right; left; reflexivity). rewrite ids_app, ids_some in H. apply in_or_app. right. exact H. }
    assert (last_is (e_id e) (active f) = false) as ->.
    { destruct Q as (X & s & -> & Q). rewrite last_is_app. destruct s as [x|]; [|reflexivity]. apply N.eqb_neq. apply Q. reflexivity. }
    exists (a ++ killed e :: b), g', (retired f + 1)%Z. assert (Ck : chunk (a ++ killed e :: b) g') by (apply (chunk_kill a e b g); [split; [exact C1|rewrite El; exact C2]|exact Hg|exact Ig]).
    split.
    + f_equal. f_equal. assert (E2 : forall x, pre ++ map Some (a ++ x :: b) ++ post = (pre ++ map Some a) ++ Some x :: (map Some b ++ post)) by (intros x; rewrite map_app; cbn [map]; rewrite <- !app_assoc; reflexivity).
      rewrite EA, !E2. apply map_kill. rewrite <- E2. exact I4.
    + split; [exact Ck|]. split; [exact Ig|]. split; [rewrite live_app; reflexivity|]. split; cbn [active segs retired e_next s_next].
      * exact (R _ _ Ck).
      * rewrite (seg_ids_same _ _ _ _ Ig). exact I2.
      * exact (snext_same _ _ _ _ _ I3 Ig).
      * assert (Z0 : ids (pre ++ map Some (a ++ killed e :: b) ++ post) = ids (pre ++ map Some (a ++ e :: b) ++ post)) by (rewrite !ids_app, !ids_some, !map_app; reflexivity). rewrite Z0. exact I4.
      * assert (Z0 : ids (pre ++ map Some (a ++ killed e :: b) ++ post) = ids (pre ++ map Some (a ++ e :: b) ++ post)) by (rewrite !ids_app, !ids_some, !map_app; reflexivity). rewrite Z0. exact I5.
      * rewrite (Dd (killed e)). cbn [killed e_live]. lia.
Qed.
