(* C53: the remaining operations *)
From Coq Require Import ZArith Lia ZifyBool ZifyN ZifyNat.
From Verif Require Import Str StrFacts FmtModel FmtSpec FmtProofs FmtList FmtOps.
Open Scope N_scope.

Lemma push_fast_ok n a f : inv f -> exists f', push_fast n a f = Some f' /\ inv f' /\ noah_push (e_next f) n a (view (active f)) (view (active f')) /\ e_next f' = e_next f + 1.
Proof.
  intros H. assert (G : exists f', push n a None true (prepare f) = Some f' /\ inv f' /\ noah_push (e_next f) n a (view (active f)) (view (active f')) /\ e_next f' = e_next f + 1).
  { destruct (prepare_inv f H) as (H1 & V & NE & EN). destruct (push_ok n a None true (prepare f) H1 NE) as (f' & E & I & P & N'). exists f'. rewrite V, EN in P. rewrite EN in N'. auto. }
  unfold push_fast. destruct (last_seg (segs f)) as [g|] eqn:LS; [|exact G]. destruct (_ && _ && _) eqn:Cd; [|exact G]. clear G.
  apply andb_true_iff in Cd as [Cd _]. apply andb_true_iff in Cd as [_ Cd]. destruct (g_pending g) eqn:P; [discriminate Cd|]. destruct (g_keys g) eqn:K; [|discriminate Cd]. clear Cd.
  pose proof (i_lay f H) as L. apply lay_last in L as [[_ L]|(pre & es & sg0 & g' & EA & ES & C & CL & R)]; [rewrite L in LS; discriminate LS|]. rewrite ES, last_seg_app in LS. assert (g' = g) as -> by congruence. clear LS. rewrite ES, set_last_app.
  assert (El : live es = []) by exact (no_keys g _ (proj2 C) P K). eexists. split; [reflexivity|]. cbn [active e_next]. cbv zeta.
  set (e := Entry (e_next f) n a SNone (g_id g) true). pose proof (pend_ok g e) as PK. cbv zeta in PK. change (e_name e) with n in PK. rewrite <- El in PK at 1. specialize (PK (proj2 C) K). split.
  - assert (EQ : active f ++ [Some e] = pre ++ map Some (es ++ [e])) by (rewrite EA, map_app, app_assoc; reflexivity). rewrite EQ. apply (inv_insert f pre es [] sg0 g _ e H); try assumption; rewrite ?app_nil_r; try assumption; try reflexivity. rewrite El. exact PK.
  - split; [|reflexivity]. rewrite view_app. change (view [Some e]) with [AElem (e_next f) n a]. eapply noah_room; [rewrite EA; apply after_closed; exact CL|apply count_same|rewrite El; cbn; lia].
Qed.
Lemma marker_ok f : inv f -> inv (push_marker f).
Proof.
  intros [I1 I2 I3 I4 I5 I6]. unfold push_marker. split; cbn [active segs retired e_next s_next].
  - apply (lay_mark _ _ []); [exact I1|]. split; [intros e []|apply empty_seg_ok].
  - rewrite map_app. cbn [map g_id]. apply (NoDup_Add (a := s_next f) (l := map g_id (segs f))); [rewrite <- (app_nil_r (map g_id (segs f))) at 1; apply Add_app|]. split; [exact I2|]. intros I. apply in_map_iff in I as (g & Q & I). apply I3 in I. lia.
  - intros g I. apply in_app_or in I as [I|[<-|[]]]; [specialize (I3 g I); lia|cbn; lia].
  - rewrite ids_app. cbn [ids flat_map]. rewrite app_nil_r. exact I4.
  - rewrite ids_app. cbn [ids flat_map]. rewrite app_nil_r. exact I5.
  - rewrite I6, dead_app. cbn. lia.
Qed.
Lemma clear_loop_some es : forall t d, clear_loop (map Some es ++ t) d = clear_loop t (d - dead (map Some es))%Z.
Proof.
  induction es as [|e es IH]; intros t d; cbn [map app clear_loop]; [f_equal; cbn; lia|]. rewrite IH. f_equal. change (Some e :: map Some es) with ([Some e] ++ map Some es). rewrite dead_app. assert (D1 : dead [Some e] = if e_live e then 0%Z else 1%Z) by (unfold dead; cbn [filter stays]; destruct (e_live e); reflexivity). rewrite D1. destruct (e_live e); lia.
Qed.
Lemma dead_rev l : dead (rev l) = dead l.
Proof. induction l as [|x l IH]; [reflexivity|]. cbn [rev]. rewrite dead_app, IH. change (x :: l) with ([x] ++ l). rewrite dead_app. lia. Qed.
Lemma nodup_app_l {A} (a b : list A) : NoDup (a ++ b) -> NoDup a.
Proof. induction a as [|x a IH]; intros H; [constructor|]. cbn [app] in H. inversion H as [|? ? N1 H1]; subst. constructor; [|apply IH; exact H1]. intros I. apply N1. apply in_or_app. left. exact I. Qed.
Lemma clear_ok f : inv f -> exists f', clear f = Some f' /\ inv f' /\ step (e_next f) Clear (view (active f)) (view (active f')) /\ e_next f' = e_next f.
Proof.
  intros H. destruct H as [I1 I2 I3 I4 I5 I6]. unfold clear. remember (active f) as act. remember (segs f) as sg. destruct I1 as [|es g C|act0 sg0 es g L C].
  - cbn [rev clear_loop last_seg]. eexists. split; [reflexivity|]. split; [|split; [apply st_clear_all; intros []|reflexivity]]. split; cbn [active segs retired e_next s_next]; try assumption. constructor.
  - rewrite <- map_rev. rewrite <- (app_nil_r (map Some (rev es))), clear_loop_some. cbn [clear_loop]. cbn [last_seg]. eexists. split; [reflexivity|]. split; [|split; [apply st_clear_all; rewrite view_some; apply no_marker|reflexivity]]. unfold set_last. cbn [removelast app].
    split; cbn [active segs retired e_next s_next].
    + apply (lay_base []). split; [intros e []|apply empty_seg_ok].
    + exact I2.
    + intros x [<-|[]]. cbn. apply I3. left. reflexivity.
    + constructor.
    + intros i [].
    + rewrite I6, map_rev, dead_rev. cbn. lia.
  - rewrite rev_app_distr. cbn [rev]. rewrite <- map_rev, <- app_assoc, clear_loop_some. cbn [app clear_loop]. rewrite rev_involutive. destruct (sg0 ++ [g]) as [|g0 sg1] eqn:E; [destruct sg0; discriminate E|]. rewrite <- E in *. clear E g0 sg1. rewrite removelast_last.
    eexists. split; [reflexivity|]. split; [|split; [rewrite view_app; cbn [view]; rewrite view_some; apply st_clear; apply no_marker|reflexivity]]. split; cbn [active segs retired e_next s_next].
    + exact L.
    + rewrite map_app in I2. exact (nodup_app_l _ _ I2).
    + intros x I. apply I3. apply in_or_app. left. exact I.
    + rewrite ids_app in I4. exact (nodup_app_l _ _ I4).
    + intros i I. apply I5. rewrite ids_app. apply in_or_app. left. exact I.
    + rewrite I6, map_rev, dead_rev, dead_app. change (None :: map Some es) with ([None] ++ map Some es). rewrite dead_app. cbn. lia.
Qed.
Lemma lookup_in A e B : NoDup (ids (A ++ Some e :: B)) -> lookup (e_id e) (A ++ Some e :: B) = Some e.
Proof.
  induction A as [|[x|] A IH]; cbn [app ids flat_map lookup]; intros H; [rewrite N.eqb_refl; reflexivity| |apply IH; exact H]. inversion H as [|? ? N1 H1]; subst. destruct (N.eqb_spec (e_id x) (e_id e)) as [Q|]; [|apply IH; exact H1]. exfalso. apply N1. rewrite Q. fold (ids (A ++ Some e :: B)). rewrite ids_app. apply in_or_app. right. left. reflexivity.
Qed.
Lemma retire_any f A e B : inv f -> active f = A ++ Some e :: B -> e_live e = true -> exists f', retire e f = Some f' /\ inv f' /\ view (active f') = without (e_id e) (view (active f)) /\ e_next f' = e_next f.
Proof.
  intros H EA Lv. destruct (lay_at _ _ (i_lay f H) _ _ _ EA) as (pre & a & b & post & sg0 & g & sg1 & -> & -> & ES & C & CL & CR & R).
  assert (EA' : active f = pre ++ map Some (a ++ e :: b) ++ post) by (rewrite EA, map_app; cbn [map]; rewrite <- !app_assoc; reflexivity).
  destruct (retire_ok f pre a e b post sg0 g sg1 H EA' ES C R Lv) as (es' & g' & r & E & C' & Ig & Le & I'). eexists. split; [exact E|]. split; [exact I'|]. split; [|reflexivity]. cbn [active].
  pose proof (i_ids f H) as ND. rewrite EA in ND |- *. rewrite (without_view _ _ _ ND Lv). rewrite !view_app, !view_some, Le, map_app, <- !app_assoc. reflexivity.
Qed.
Lemma find_back_some n back i : find_back n back = Some i -> exists a e t, back = map Some a ++ Some e :: t /\ i = List.length t /\ e_live e = true /\ e_name e = n /\ forall x, In x a -> e_live x = true -> e_name x <> n.
Proof.
  induction back as [|[e|] back IH]; cbn [find_back]; [discriminate| |discriminate]. destruct (e_live e && str_eqb (e_name e) n) eqn:E.
  - intros H. apply andb_true_iff in E as [E1 E2]. apply str_eqb_eq in E2. exists [], e, back. split; [reflexivity|]. split; [injection H as <-; reflexivity|]. split; [exact E1|]. split; [exact E2|]. intros x [].
  - intros H. destruct (IH H) as (a & e' & t & -> & Hi & L & Nm & U). exists (e :: a), e', t. split; [reflexivity|]. split; [exact Hi|]. split; [exact L|]. split; [exact Nm|]. intros x [<-|I]; [|exact (U x I)]. intros Lx Q. rewrite Lx, Q, str_eqb_refl in E. discriminate E.
Qed.
Lemma find_back_none n es t : find_back n (map Some es ++ t) = None -> forall x, In x es -> e_live x = true -> e_name x <> n.
Proof.
  induction es as [|e es IH]; cbn [map app find_back]; [intros _ x []|]. destruct (e_live e && str_eqb (e_name e) n) eqn:E; [discriminate|]. intros H x [<-|I] Lx Q; [rewrite Lx, Q, str_eqb_refl in E; discriminate E|exact (IH H x I Lx Q)].
Qed.
Lemma named_it n e : named n (it e) <-> e_name e = n.
Proof. reflexivity. Qed.
(* what a backward search finds *)
Lemma search_ok n f : inv f -> match find_back n (rev (active f)) with
  | Some i => exists A e B, active f = A ++ Some e :: B /\ i = List.length A /\ e_live e = true /\ last_named n (view (active f)) (Some (it e)) /\ e_name e = n
  | None => last_named n (view (active f)) None
  end.
Proof.
  intros H. destruct (find_back n (rev (active f))) as [i|] eqn:F.
  - apply find_back_some in F as (a & e & t & E & -> & L & Nm & U). apply (f_equal (@rev slot)) in E. rewrite rev_involutive, rev_app_distr in E. cbn [rev] in E. rewrite <- app_assoc in E. cbn [app] in E. rewrite <- map_rev in E.
    exists (rev t), e, (map Some (rev a)). split; [exact E|]. split; [rewrite rev_length; reflexivity|]. split; [exact L|]. split; [|exact Nm].
    destruct (lay_at _ _ (i_lay f H) _ _ _ E) as (pre & x & y & post & sg0 & g & sg1 & E1 & E2 & _ & _ & CL & CR & _).
    assert (post = []) as -> by (destruct CR as [[-> _]|(q & ->)]; [reflexivity|]; exfalso; apply (no_none (rev a)); rewrite E2; apply in_or_app; right; left; reflexivity). rewrite app_nil_r in E2.
    assert (Eq : view (active f) = view (pre ++ map Some (x ++ e :: y))) by (rewrite E, E1, E2, map_app; cbn [map]; rewrite <- app_assoc; reflexivity).
    assert (Lx : live (x ++ e :: y) = live x ++ e :: live y) by (rewrite live_app; unfold live at 2; cbn [filter]; rewrite L; reflexivity).
    rewrite Eq. apply (ln_some n _ (map it (live (x ++ e :: y))) (map it (live x)) (it e) (map it (live y))); [apply after_closed; exact CL|rewrite Lx, map_app; reflexivity|exact Nm|]. intros z I Q. apply in_map_iff in I as (w & <- & I). unfold live in I. apply filter_In in I as [I Lw].
    assert (J : In w (rev a)). { assert (J : In (Some w) (map Some (rev a))) by (rewrite E2; apply in_map; exact I). apply in_map_iff in J as (w' & Qw & J). injection Qw as Qw. rewrite <- Qw. exact J. } apply in_rev in J. exact (U w J Lw Q).
  - destruct (lay_last _ _ (i_lay f H)) as [[E _]|(pre & es & sg0 & g & E & _ & _ & CL & _)].
    + rewrite E. apply (ln_none n _ []); [apply am_none; intros []|intros y []].
    + rewrite E in F |- *. rewrite rev_app_distr, <- map_rev in F. pose proof (find_back_none _ _ _ F) as U. apply (ln_none n _ (map it (live es))); [apply after_closed; exact CL|]. intros z I Q. apply in_map_iff in I as (w & <- & I). unfold live in I. apply filter_In in I as [I Lw]. apply (U w); [apply in_rev in I; exact I|exact Lw|exact Q].
Qed.
Lemma remove_last_ok n f : inv f -> exists f', remove_last_named n f = Some f' /\ inv f' /\ step (e_next f) (RemoveLast n) (view (active f)) (view (active f')) /\ e_next f' = e_next f.
Proof.
  intros H. unfold remove_last_named. pose proof (search_ok n f H) as S0. destruct (find_back n (rev (active f))) as [i|].
  - destruct S0 as (A & e & B & E & -> & L & LN & Nm). assert (Nt : nth_error (active f) (List.length A) = Some (Some e)) by (rewrite E, nth_error_app2, Nat.sub_diag by lia; reflexivity). rewrite Nt. destruct (retire_any f A e B H E L) as (f' & E' & I' & V' & N'). exists f'. split; [exact E'|]. split; [exact I'|]. split; [|exact N']. rewrite V'. apply (st_remove _ n _ (e_id e) (signature e)). rewrite <- Nm at 2. exact LN.
  - exists f. split; [reflexivity|]. split; [exact H|]. split; [|reflexivity]. apply st_remove_none. exact S0.
Qed.
Lemma mat_count n g : materialize (count_name n g) = count_name n (materialize g).
Proof. destruct g as [i [p|] ns ks]; reflexivity. Qed.
Lemma split_position (pre : list slot) es k : (k <= List.length (pre ++ map Some es))%nat -> closed_left pre -> ~ In None (skipn k (pre ++ map Some es)) ->
  exists x y, es = x ++ y /\ firstn k (pre ++ map Some es) = pre ++ map Some x /\ skipn k (pre ++ map Some es) = map Some y.
Proof.
  intros L CL Nn. assert (G : (List.length pre <= k)%nat).
  { destruct CL as [->|(p & ->)]; [cbn; lia|]. destruct (Nat.le_gt_cases (List.length (p ++ [None])) k) as [Q|Q]; [exact Q|]. exfalso. apply Nn. rewrite app_length in Q. cbn [List.length] in Q. rewrite <- app_assoc, skipn_app. apply in_or_app. right. replace (k - List.length p)%nat with O by lia. left. reflexivity. }
  exists (firstn (k - List.length pre) es), (skipn (k - List.length pre) es). split; [symmetry; apply firstn_skipn|]. rewrite firstn_app, skipn_app. rewrite (firstn_all2 pre) by exact G. rewrite (skipn_all2 pre) by exact G. cbn [app]. rewrite firstn_map, skipn_map. split; reflexivity.
Qed.
Lemma replace_ok id k f : inv f -> ok_op (Replace id k) f -> exists f', apply_op (Replace id k) f = Some f' /\ inv f' /\ step (e_next f) (Replace id k) (view (active f)) (view (active f')) /\ e_next f' = e_next f + 1.
Proof.
  intros H (A & e & B & f1 & EA & <- & Lv & NB & ER & Lk & Sk). cbn [apply_op]. pose proof (i_ids f H) as ND. rewrite EA in ND. pose proof (lookup_in _ _ _ ND) as Lk0. rewrite <- EA in Lk0. rewrite Lk0. unfold replace_. rewrite ER.
  destruct (lay_at _ _ (i_lay f H) _ _ _ EA) as (pre & a & b & post & sg0 & g & sg1 & -> & -> & ES & C & CL & CR & R).
  assert (post = [] /\ sg1 = []) as [-> ->] by (destruct CR as [Q|(q & ->)]; [exact Q|]; exfalso; apply NB; apply in_or_app; right; left; reflexivity).
  assert (EA' : active f = pre ++ map Some (a ++ e :: b) ++ []) by (rewrite EA, map_app; cbn [map]; rewrite !app_nil_r, <- !app_assoc; reflexivity).
  destruct (retire_ok f pre a e b [] sg0 g [] H EA' ES C R Lv) as (es' & g' & r & E & C' & Ig & Le & I'). rewrite ER in E. assert (f1 = Fmt (pre ++ map Some es' ++ []) (sg0 ++ [g']) r (e_next f) (s_next f)) as -> by congruence. clear E. rewrite app_nil_r in *. cbn [active segs retired e_next s_next] in *. rewrite last_seg_app, set_last_app.
  assert (Nn : ~ In None (skipn k (pre ++ map Some es'))) by (intros Q; destruct (Sk None Q) as (z & Qz & _); discriminate Qz).
  destruct (split_position pre es' k Lk CL Nn) as (x & y & -> & Fk & Sk').
  eexists. split; [reflexivity|]. cbn [active e_next]. unfold StackModel.ins_nth. change (option entry) with slot in *. rewrite Fk, Sk'.
  set (rp := Entry (e_next f) (e_name e) (e_attrs e) (SSig (signature e)) (g_id g') true).
  assert (EQ : (pre ++ map Some x) ++ Some rp :: map Some y = pre ++ map Some (x ++ rp :: y)) by (rewrite map_app, <- app_assoc; reflexivity).
  assert (Kr : ekey rp = ekey e) by reflexivity.
  destruct (materialize_ok g' _ (proj2 C')) as (M1 & M2 & M3).
  assert (Lc : live (a ++ e :: b) = live a ++ e :: live b) by (rewrite live_app; unfold live at 2; cbn [filter]; rewrite Lv; reflexivity).
  assert (Sy : same (ekey rp) (live y) = []).
  { rewrite Kr. destruct (same (ekey e) (live y)) as [|z t] eqn:Es; [reflexivity|]. exfalso. assert (J : In z (same (ekey e) (live y))) by (rewrite Es; left; reflexivity). unfold same in J. apply filter_In in J as [J Jk]. unfold live in J. apply filter_In in J as [J Jl]. destruct (Sk (Some z)) as (z' & Q & K); [exact (eq_ind_r (fun L => In (Some z) L) (in_map Some y z J) Sk')|]. assert (z' = z) as -> by congruence. apply key_eqb_iff in Jk as [J1 J2]. cbn [ekey fst snd] in *. apply (K Jl (eq_sym J1)). exact J2. }
  assert (Lt : (List.length (same (ekey rp) (live x ++ live y)) < 3)%nat).
  { rewrite <- live_app, Le, Kr. pose proof (sg_three g _ (proj2 C) (ekey e)) as T. rewrite Lc, same_mid, key_refl in T. rewrite same_app. rewrite !app_length in *. cbn [List.length] in T. lia. }
  split.
  - rewrite mat_count. match goal with |- inv (Fmt ?L _ _ _ _) => change L with ((pre ++ map Some x) ++ Some rp :: map Some y) end. rewrite EQ.
    eapply (inv_insert (Fmt (pre ++ map Some (x ++ y)) (sg0 ++ [g']) r (e_next f) (s_next f)) pre x y sg0 g' _ rp I'); [reflexivity|reflexivity| |exact C'| | |reflexivity|reflexivity|reflexivity].
    + intros es2 g2 C2. specialize (R es2 g2 C2). rewrite app_nil_r in R. exact R.
    + change (e_name e) with (e_name rp). apply index_ok; [rewrite <- live_app; exact M1|exact M2|exact Lt|exact Sy].
    + exact M3.
  - split; [|reflexivity]. match goal with |- step _ _ _ (view ?L) => change L with ((pre ++ map Some x) ++ Some rp :: map Some y) end. rewrite EQ. rewrite view_app, view_some.
    assert (Lr : live (x ++ rp :: y) = live x ++ rp :: live y) by (rewrite live_app; reflexivity). rewrite Lr, map_app. cbn [map]. change (it rp) with (AElem (e_next f) (e_name e) (signature e)).
    apply st_replace.
    + rewrite EA. etransitivity; [exact (without_view _ _ _ ND Lv)|]. rewrite !view_app, !view_some. rewrite <- app_assoc. f_equal. rewrite <- map_app, <- Le, live_app, map_app. reflexivity.
    + rewrite <- map_app, <- live_app, <- view_some, <- view_app, view_some. apply after_closed. exact CL.
    + rewrite EA, view_app. apply in_or_app. right. cbn [view]. rewrite Lv. left. reflexivity.
Qed.
Lemma op_ok o f : inv f -> ok_op o f -> exists f', apply_op o f = Some f' /\ inv f' /\ step (e_next f) o (view (active f)) (view (active f')).
Proof.
  intros H Ok. destruct o as [|n a stored compiled|n a| | |id|n|id k|].
  - destruct (prepare_inv f H) as (A & B & _). exists (prepare f). split; [reflexivity|]. split; [exact A|]. rewrite B. constructor.
  - destruct (push_ok n a stored compiled f H Ok) as (f' & A & B & D & _). exists f'. split; [exact A|]. split; [exact B|]. constructor. exact D.
  - destruct (push_fast_ok n a f H) as (f' & A & B & D & _). exists f'. split; [exact A|]. split; [exact B|]. constructor. exact D.
  - exists (push_marker f). split; [reflexivity|]. split; [apply marker_ok; exact H|]. unfold push_marker. cbn [active]. rewrite view_app. constructor.
  - destruct (clear_ok f H) as (f' & A & B & D & _). exists f'. auto.
  - destruct Ok as (e & I & <- & Lv). apply in_split in I as (A & B & EA). pose proof (i_ids f H) as ND. cbn [apply_op]. rewrite EA in ND. pose proof (lookup_in _ _ _ ND) as Lk0. rewrite <- EA in Lk0. rewrite Lk0. destruct (retire_any f A e B H EA Lv) as (f' & E' & I' & V' & _). exists f'. split; [exact E'|]. split; [exact I'|]. rewrite V'. constructor. exists (e_name e), (signature e). rewrite EA, view_app. apply in_or_app. right. cbn [view]. rewrite Lv. left. reflexivity.
  - destruct (remove_last_ok n f H) as (f' & A & B & D & _). exists f'. auto.
  - destruct (replace_ok id k f H Ok) as (f' & A & B & D & _). exists f'. auto.
  - destruct (prepare_ok f H) as (A & B & _). exists (compact f). split; [reflexivity|]. split; [exact A|]. rewrite B. constructor.
Qed.
Lemma empty_inv : inv empty.
Proof. split; cbn; try constructor; intros ? []. Qed.
Lemma three_ok f : inv f -> forall s n a k, after_marker (view (active f)) s -> count (noah_same n a) s k -> (k <= 3)%nat.
Proof.
  intros H s n a k A Cn. destruct (lay_last _ _ (i_lay f H)) as [[E _]|(pre & es & sg0 & g & E & _ & C & CL & _)].
  - rewrite E in A. assert (s = []) as -> by (apply (after_fun _ _ A); apply am_none; intros []). inversion Cn. lia.
  - rewrite E in A. assert (s = map it (live es)) as -> by (apply (after_fun _ _ A); apply after_closed; exact CL). rewrite (count_fun _ _ _ Cn _ (count_same n a (live es))). apply (sg_three g _ (proj2 C)).
Qed.
Lemma find_index_ok n f : inv f -> match find_index n f with
  | Some i => exists e, nth_error (active f) i = Some (Some e) /\ e_live e = true /\ last_named n (view (active f)) (Some (AElem (e_id e) n (signature e)))
  | None => last_named n (view (active f)) None
  end.
Proof.
  intros H. pose proof (search_ok n f H) as S0.
  assert (G : match find_back n (rev (active f)) with
    | Some i => exists e, nth_error (active f) i = Some (Some e) /\ e_live e = true /\ last_named n (view (active f)) (Some (AElem (e_id e) n (signature e)))
    | None => last_named n (view (active f)) None
    end).
  { destruct (find_back n (rev (active f))) as [i|]; [|exact S0]. destruct S0 as (A & e & B & E & -> & L & LN & Nm). exists e. split; [rewrite E, nth_error_app2, Nat.sub_diag by lia; reflexivity|]. split; [exact L|]. rewrite <- Nm at 2. exact LN. }
  unfold find_index. destruct (last_seg (segs f)) as [g|] eqn:LS; [|exact G]. destruct (z_get n (g_names g)) as [z|] eqn:Z0; [exact G|]. clear G S0.
  destruct (lay_last _ _ (i_lay f H)) as [[_ E]|(pre & es & sg0 & g' & E & ES & C & CL & _)]; [rewrite E in LS; discriminate LS|]. rewrite ES, last_seg_app in LS. assert (g' = g) as -> by congruence. rewrite (sg_names g _ (proj2 C)) in Z0.
  rewrite E. apply (ln_none n _ (map it (live es))); [apply after_closed; exact CL|]. intros y I Q. apply in_map_iff in I as (e & <- & I). destruct (cnt n (live es)) eqn:Cn; [|discriminate Z0]. unfold cnt in Cn. apply length_zero_iff_nil in Cn. assert (J : In e (filter (fun e => str_eqb (e_name e) n) (live es))) by (apply filter_In; split; [exact I|apply str_eqb_eq; exact Q]). rewrite Cn in J. destruct J.
Qed.
