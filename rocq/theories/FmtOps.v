(* C53: each operation *)
From Coq Require Import ZArith Lia ZifyBool ZifyN ZifyNat.
From Verif Require Import Str StrFacts FmtModel FmtSpec FmtProofs FmtList.
Open Scope N_scope.

(* when the parser uses an operation *)
Definition ok_op (o : op) (f : fmt) : Prop :=
  match o with
  (* the rest of _parse_formatting_start comes after its beginning *)
  | Push _ _ _ _ => segs f <> []
  (* live entries are retired *)
  | Retire id => exists e, In (Some e) (active f) /\ e_id e = id /\ e_live e = true
  (* the formatting element is after the last marker; the clone comes after the last marker and after all its equals *)
  | Replace id position => exists pre e post f', active f = pre ++ Some e :: post /\ e_id e = id /\ e_live e = true /\ ~ In None post /\ retire e f = Some f' /\
      (position <= List.length (active f'))%nat /\
      forall s, In s (skipn position (active f')) -> exists e', s = Some e' /\ (e_live e' = true -> e_name e' = e_name e -> ~ forall p, In p (signature e) <-> In p (signature e'))
  | _ => True
  end.

Lemma view_ids l i n a : In (AElem i n a) (view l) -> In i (ids l).
Proof.
  induction l as [|[e|] l IH]; cbn [view ids flat_map app]; [auto| |intros [Q|I]; [discriminate Q|exact (IH I)]]. destruct (e_live e); intros I; cbn [In]; [|right; exact (IH I)]. destruct I as [Q|I]; [left; congruence|right; exact (IH I)].
Qed.
Lemma without_notin id l : (forall n a, ~ In (AElem id n a) l) -> without id l = l.
Proof.
  induction l as [|x l IH]; intros H; [reflexivity|]. unfold without. cbn [filter]. fold (without id l). rewrite IH by (intros n a I; apply (H n a); right; exact I). destruct x as [|i n a]; [reflexivity|]. destruct (N.eqb_spec i id) as [->|]; [|reflexivity]. exfalso. apply (H n a). left. reflexivity.
Qed.
Lemma without_app id a b : without id (a ++ b) = without id a ++ without id b.
Proof. apply filter_app. Qed.
Lemma without_view A e B : NoDup (ids (A ++ Some e :: B)) -> e_live e = true -> without (e_id e) (view (A ++ Some e :: B)) = view A ++ view B.
Proof.
  intros H L. rewrite ids_app in H. cbn [ids flat_map app] in H. apply NoDup_remove_2 in H. rewrite in_app_iff in H. fold (ids B) in H. rewrite view_app. cbn [view]. rewrite L, without_app. unfold without at 2. cbn [filter]. rewrite N.eqb_refl. cbn [negb]. fold (without (e_id e) (view B)).
  rewrite !without_notin; [reflexivity| |]; intros n a I; apply view_ids in I; tauto.
Qed.
Lemma same_iff n a e : key_eqb (n, a) (ekey e) = true <-> noah_same n a (it e).
Proof. rewrite key_eqb_iff. unfold keq, noah_same, it, ekey. cbn [fst snd]. split; intros [A B]; (split; [congruence|]); intros p; symmetry; apply B. Qed.
Lemma count_same n a l : count (noah_same n a) (map it l) (List.length (same (n, a) l)).
Proof. induction l as [|e l IH]; [constructor|]. unfold same. cbn [map filter]. destruct (key_eqb (n, a) (ekey e)) eqn:E; [apply count_yes; [apply same_iff; exact E|exact IH]|apply count_no; [rewrite <- same_iff; congruence|exact IH]]. Qed.
Lemma count_fun {A} (P : A -> Prop) l k : count P l k -> forall k', count P l k' -> k = k'.
Proof. induction 1 as [|x l k H1 H2 IH|x l k H1 H2 IH]; intros k' H; inversion H; subst; [reflexivity|f_equal; auto|contradiction|contradiction|auto]. Qed.
Lemma after_fun l s : after_marker l s -> forall s', after_marker l s' -> s = s'.
Proof.
  intros H s' H'. destruct H as [l H|p s H]; inversion H' as [l' K|p' s'' K E]; subst; try reflexivity.
  - exfalso. apply H. apply in_or_app. right. left. reflexivity.
  - exfalso. apply K. apply in_or_app. right. left. reflexivity.
  - apply app_mid_cases in E as [(c & -> & ->)|[(-> & _ & ->)|(c & -> & ->)]]; [|reflexivity|]; exfalso; [apply K|apply H]; apply in_or_app; right; left; reflexivity.
Qed.
Lemma same_live k es : same k (live es) = filter (fun e => e_live e && key_eqb k (ekey e)) es.
Proof. unfold same, live. induction es as [|e es IH]; [reflexivity|]. cbn [filter]. destruct (e_live e); cbn [filter andb]; [destruct (key_eqb k (ekey e)); [f_equal|]; exact IH|exact IH]. Qed.
Lemma filter_first {A} (P : A -> bool) l d t : filter P l = d :: t -> exists a b, l = a ++ d :: b /\ P d = true /\ filter P a = [] /\ filter P b = t.
Proof.
  induction l as [|x l IH]; cbn [filter]; intros H; [discriminate H|]. destruct (P x) eqn:E.
  - exists [], l. assert (x = d /\ filter P l = t) as [-> <-] by (split; congruence). repeat split. exact E.
  - destruct (IH H) as (a & b & -> & Pd & Pa & Pb). exists (x :: a), b. split; [reflexivity|]. split; [exact Pd|]. split; [cbn [filter]; rewrite E; exact Pa|exact Pb].
Qed.
Lemma chunk_same es g g' : chunk es g -> seg_ok g' (live es) -> g_id g' = g_id g -> chunk es g'.
Proof. intros [A _] B E. split; [rewrite E; exact A|exact B]. Qed.
(* changing the last segment only *)
Lemma inv_seg f pre es sg0 g g' : inv f -> active f = pre ++ map Some es -> segs f = sg0 ++ [g] -> (forall es' g', chunk es' g' -> layout (pre ++ map Some es') (sg0 ++ [g'])) ->
  chunk es g' -> g_id g' = g_id g -> inv (Fmt (active f) (sg0 ++ [g']) (retired f) (e_next f) (s_next f)).
Proof.
  intros [I1 I2 I3 I4 I5 I6] EA ES R C E. split; cbn [active segs retired e_next s_next]; try assumption.
  - rewrite EA. apply R. exact C.
  - rewrite (seg_ids_same sg0 g g' [] E), <- ES. exact I2.
  - rewrite ES in I3. exact (snext_same _ _ _ _ _ I3 E).
Qed.
(* a new entry in the last chunk *)
Lemma inv_insert f pre x y sg0 g g' e : inv f -> active f = pre ++ map Some (x ++ y) -> segs f = sg0 ++ [g] -> (forall es' g', chunk es' g' -> layout (pre ++ map Some es') (sg0 ++ [g'])) ->
  chunk (x ++ y) g -> seg_ok g' (live x ++ e :: live y) -> g_id g' = g_id g -> e_seg e = g_id g -> e_live e = true -> e_id e = e_next f ->
  inv (Fmt (pre ++ map Some (x ++ e :: y)) (sg0 ++ [g']) (retired f) (e_next f + 1) (s_next f)).
Proof.
  intros [I1 I2 I3 I4 I5 I6] EA ES R C H E Es El Ei. rewrite EA in *. rewrite ES in *.
  assert (Q : ids (pre ++ map Some (x ++ e :: y)) = (ids pre ++ map e_id x) ++ e_id e :: map e_id y) by (rewrite ids_app, ids_some, map_app; cbn [map]; rewrite <- app_assoc; reflexivity).
  assert (Q0 : ids (pre ++ map Some (x ++ y)) = (ids pre ++ map e_id x) ++ map e_id y) by (rewrite ids_app, ids_some, map_app, <- app_assoc; reflexivity).
  split; cbn [active segs retired e_next s_next].
  - apply R. split; [|rewrite live_app; unfold live at 2; cbn [filter]; rewrite El; exact H]. intros z I. rewrite E. apply in_app_or in I as [I|[<-|I]]; [apply (proj1 C); apply in_or_app; auto|exact Es|apply (proj1 C); apply in_or_app; auto].
  - rewrite (seg_ids_same sg0 g g' [] E). exact I2.
  - exact (snext_same _ _ _ _ _ I3 E).
  - rewrite Q. rewrite Q0 in I4, I5. apply (NoDup_Add (a := e_id e) (l := (ids pre ++ map e_id x) ++ map e_id y)); [apply Add_app|]. split; [exact I4|]. intros I. apply I5 in I. lia.
  - rewrite Q. rewrite Q0 in I5. intros i I. apply in_app_or in I as [I|[<-|I]]; [specialize (I5 i (in_or_app _ _ _ (or_introl I)))|lia|specialize (I5 i (in_or_app _ _ _ (or_intror I)))]; lia.
  - rewrite I6. rewrite !map_app. cbn [map]. rewrite !dead_app. change (Some e :: map Some y) with ([Some e] ++ map Some y). rewrite dead_app. assert (D1 : dead [Some e] = 0%Z) by (unfold dead; cbn [filter stays]; rewrite El; reflexivity). lia.
Qed.
Lemma seg_add g l e : seg_ok g l -> g_pending g = None -> (List.length (same (ekey e) l) < 3)%nat ->
  seg_ok (match g_pending (count_name (e_name e) g), g_keys (count_name (e_name e) g) with None, [] => Segment (g_id (count_name (e_name e) g)) (Some e) (g_names (count_name (e_name e) g)) (g_keys (count_name (e_name e) g)) | _, _ => index_entry e (count_name (e_name e) g) end) (l ++ [e]) /\
  g_id (match g_pending (count_name (e_name e) g), g_keys (count_name (e_name e) g) with None, [] => Segment (g_id (count_name (e_name e) g)) (Some e) (g_names (count_name (e_name e) g)) (g_keys (count_name (e_name e) g)) | _, _ => index_entry e (count_name (e_name e) g) end) = g_id g.
Proof.
  intros H P L. change (g_pending (count_name (e_name e) g)) with (g_pending g). rewrite P. change (g_keys (count_name (e_name e) g)) with (g_keys g). destruct (g_keys g) as [|kb d] eqn:K.
  - assert (l = []) as -> by exact (no_keys g l H P K). split; [|reflexivity]. cbn [app]. rewrite <- K. apply (pend_ok g e H K).
  - split; [|reflexivity]. apply index_ok; [rewrite app_nil_r; exact H|exact P|rewrite app_nil_r; exact L|reflexivity].
Qed.

Lemma prepare_ok f : inv f -> inv (compact f) /\ view (active (compact f)) = view (active f) /\ segs (compact f) = segs f /\ e_next (compact f) = e_next f.
Proof.
  intros H. unfold compact. destruct (_ <? _)%Z; [auto|]. cbn [active segs]. destruct H as [I1 I2 I3 I4 I5 I6].
  assert (V : forall l, view (filter stays l) = view l) by (induction l as [|[e|] l IH]; [reflexivity| |cbn [filter stays view]; rewrite IH; reflexivity]; cbn [filter stays view]; destruct (e_live e) eqn:E; cbn [view]; rewrite ?E, IH; reflexivity).
  assert (F : forall es, filter stays (map Some es) = map Some (live es)) by (induction es as [|e es IH]; [reflexivity|]; unfold live; cbn [map filter stays]; destruct (e_live e); [cbn [map]; f_equal|]; exact IH).
  assert (LL : forall es, live (live es) = live es) by (intros es; unfold live; induction es as [|e es IH]; [reflexivity|]; cbn [filter]; destruct (e_live e) eqn:E; [cbn [filter]; rewrite E, IH; reflexivity|exact IH]).
  assert (CC : forall es g, chunk es g -> chunk (live es) g) by (intros es g [A B]; split; [intros e I; apply A; unfold live in I; apply filter_In in I; tauto|rewrite LL; exact B]).
  split; [|split; [apply V|auto]]. split; cbn [active segs retired e_next s_next]; try assumption.
  - clear - I1 F CC. induction I1 as [|es g C|act sg es g L IH C]; [constructor|rewrite F; apply lay_base; apply CC; exact C|]. rewrite filter_app. cbn [filter stays]. rewrite F. apply lay_mark; [exact IH|apply CC; exact C].
  - clear - I4. induction (active f) as [|[e|] l IH]; [constructor| |apply IH; exact I4]. cbn [ids flat_map app] in I4. inversion I4 as [|? ? N1 H1]; subst. cbn [filter stays]. destruct (e_live e); [|apply IH; exact H1]. cbn [ids flat_map app]. constructor; [|apply IH; exact H1]. intros I. apply N1. clear - I. induction l as [|[x|] l IH]; [destruct I| |apply IH; exact I]. cbn [filter stays] in I. cbn [flat_map app In]. destruct (e_live x); [destruct I as [I|I]; [left; exact I|]|]; right; apply IH; exact I.
  - intros i I. apply I5. clear - I. induction (active f) as [|[x|] l IH]; [destruct I| |apply IH; exact I]. cbn [filter stays] in I. cbn [ids flat_map app In]. destruct (e_live x); [destruct I as [I|I]; [left; exact I|]|]; right; apply IH; exact I.
  - unfold dead. assert (Q : forall l, filter (fun s => negb (stays s)) (filter stays l) = []) by (induction l as [|s l IH]; [reflexivity|]; cbn [filter]; destruct (stays s) eqn:E; [cbn [filter]; rewrite E; exact IH|exact IH]). rewrite Q. reflexivity.
Qed.
Lemma lay_nil act : layout act [] -> act = [].
Proof. intros H. remember [] as sg. destruct H; [reflexivity|discriminate Heqsg|destruct sg; discriminate Heqsg]. Qed.
Lemma prepare_inv f : inv f -> inv (prepare f) /\ view (active (prepare f)) = view (active f) /\ segs (prepare f) <> [] /\ e_next (prepare f) = e_next f.
Proof.
  intros H. unfold prepare. cbv zeta.
  assert (K : exists f1, (if (64 <=? retired f)%Z then compact f else f) = f1 /\ inv f1 /\ view (active f1) = view (active f) /\ e_next f1 = e_next f).
  { destruct (64 <=? retired f)%Z; [|exists f; auto]. destruct (prepare_ok f H) as (A & B & _ & D). exists (compact f). auto. }
  destruct K as (f1 & -> & H1 & V1 & E1). destruct (segs f1) as [|g sg] eqn:ES; [|split; [exact H1|]; split; [exact V1|]; split; [congruence|exact E1]].
  destruct H1 as [I1 I2 I3 I4 I5 I6]. rewrite ES in I1. pose proof (lay_nil _ I1) as EA. split; [|split; [exact V1|split; [discriminate|exact E1]]]. rewrite EA in *. split; cbn [active segs retired e_next s_next].
  - apply (lay_base []). split; [intros e []|]. apply empty_seg_ok.
  - cbn. repeat constructor. intros [].
  - intros g [<-|[]]. cbn. lia.
  - exact I4.
  - exact I5.
  - exact I6.
Qed.
Lemma push_ok n a stored compiled f : inv f -> segs f <> [] -> exists f', push n a stored compiled f = Some f' /\ inv f' /\ noah_push (e_next f) n a (view (active f)) (view (active f')) /\ e_next f' = e_next f + 1.
Proof.
  intros H NE. pose proof (i_lay f H) as L. apply lay_last in L as [[_ L]|(pre & es & sg0 & g & EA & ES & C & CL & R)]; [contradiction|].
  unfold push. rewrite ES, last_seg_app. cbv zeta. rewrite set_last_app.
  destruct (materialize_ok g _ (proj2 C)) as (M1 & M2 & M3). set (g1 := materialize g) in *. clearbody g1. assert (C1 : chunk es g1) by exact (chunk_same es g g1 C M1 M3).
  pose proof (inv_seg f pre es sg0 g g1 H EA ES R C1 M3) as H1. cbn [active segs retired e_next s_next] in *.
  set (f1 := Fmt (active f) (sg0 ++ [g1]) (retired f) (e_next f) (s_next f)) in *.
  assert (AM : after_marker (view (active f)) (map it (live es))) by (rewrite EA; apply after_closed; exact CL).
  (* the entry, whatever its signature state, has key (n, a) *)
  assert (Fin : forall f2 es2 g2 e, inv f2 -> active f2 = pre ++ map Some es2 -> segs f2 = sg0 ++ [g2] -> chunk es2 g2 -> g_pending g2 = None -> e_id e = e_next f2 -> e_name e = n -> signature e = a -> e_seg e = g_id g2 -> e_live e = true ->
    (List.length (same (n, a) (live es2)) < 3)%nat ->
    exists f', Some (Fmt (active f2 ++ [Some e]) (set_last (match g_pending (count_name n g2), g_keys (count_name n g2) with None, [] => Segment (g_id (count_name n g2)) (Some e) (g_names (count_name n g2)) (g_keys (count_name n g2)) | _, _ => index_entry e (count_name n g2) end) (segs f2)) (retired f2) (e_next f2 + 1) (s_next f2)) = Some f'
      /\ inv f' /\ view (active f') = view (active f2) ++ [AElem (e_next f2) n a] /\ e_next f' = e_next f2 + 1).
  { intros f2 es2 g2 e H2 EA2 ES2 C2 P2 X1 X2 X3 X4 X5 Lt. eexists. split; [reflexivity|]. rewrite ES2, set_last_app. assert (Ke : ekey e = (n, a)) by (unfold ekey; congruence). destruct (seg_add g2 (live es2) e (proj2 C2) P2) as [S1 S2]; [rewrite Ke; exact Lt|]. rewrite X2 in S1, S2. cbn [active e_next]. split.
    - assert (EQ : active f2 ++ [Some e] = pre ++ map Some (es2 ++ [e])) by (rewrite EA2, map_app, app_assoc; reflexivity). rewrite EQ. apply (inv_insert f2 pre es2 [] sg0 g2 _ e H2); try assumption; rewrite ?app_nil_r; assumption.
    - split; [|reflexivity]. rewrite view_app. cbn [view]. rewrite X5. congruence. }
  assert (ES1 : segs f1 = sg0 ++ [g1]) by reflexivity. assert (EA1 : active f1 = pre ++ map Some es) by exact EA. assert (EN1 : e_next f1 = e_next f) by reflexivity. assert (VA1 : view (active f1) = view (active f)) by reflexivity. clearbody f1.
  pose proof (sg_keys g1 _ M1) as SK. rewrite M2 in SK. destruct (g_keys g1) as [|kb d] eqn:K.
  - (* nothing indexed: the segment is empty *)
    assert (El : live es = []) by exact (no_keys g1 _ M1 M2 K). rewrite ES1, last_seg_app.
    edestruct (Fin f1 es g1) as (f' & E' & I' & V' & N'); [exact H1|exact EA1|exact ES1|exact C1|exact M2| | | | | |rewrite El; cbn; lia|rewrite <- ES1; exists f'; split; [exact E'|]; split; [exact I'|]; split; [rewrite V', VA1, EN1; eapply noah_room; [exact AM|apply count_same|rewrite El; cbn; lia]|rewrite N', EN1; reflexivity]]; [reflexivity|reflexivity|destruct stored, compiled; reflexivity|reflexivity|reflexivity].
  - rewrite <- K in SK. unfold duplicate. rewrite (kget_bucket _ _ (sg_kok _ _ M1)), (SK (n, a)).
    destruct (same (n, a) (live es)) as [|d1 [|d2 [|d3 [|d4 t]]]] eqn:Es; [| | | |pose proof (sg_three _ _ M1 (n, a)) as T; rewrite Es in T; cbn [List.length] in T; lia];
    [rewrite ES1, last_seg_app; (edestruct (Fin f1 es g1) as (f' & E' & I' & V' & N'); [exact H1|exact EA1|exact ES1|exact C1|exact M2| | | | | |rewrite Es; cbn; lia|rewrite <- ES1; exists f'; split; [exact E'|]; split; [exact I'|]; split; [rewrite V', VA1, EN1; eapply noah_room; [exact AM|apply count_same|rewrite Es; cbn; lia]|rewrite N', EN1; reflexivity]]; [reflexivity|reflexivity|reflexivity|reflexivity|reflexivity])..|].
    (* three: the first of them goes *)
    pose proof Es as Es'. rewrite same_live in Es'. apply filter_first in Es' as (x & y & -> & Pd & Fx & Fy). apply andb_true_iff in Pd as [Ld Kd]. rewrite <- same_live in Fx, Fy.
    destruct (retire_ok f1 pre x d1 y [] sg0 g1 []) as (es2 & g2 & r & E2 & C2 & I2 & L2 & H2); [exact H1|rewrite app_nil_r; exact EA1|exact ES1|exact C1|intros es' g' C'; rewrite app_nil_r; apply R; exact C'|exact Ld|].
    rewrite E2. rewrite app_nil_r in *. cbn [segs]. rewrite last_seg_app. rewrite EN1 in *.
    assert (Sm : same (n, a) (live es2) = [d2; d3]) by (rewrite L2, same_app, Fx, Fy; reflexivity).
    assert (P2 : g_pending g2 = None).
    { pose proof (sg_keys g2 _ (proj2 C2)) as SK2. destruct (g_pending g2) as [p|]; [|reflexivity]. destruct SK2 as [SK2 _]. rewrite SK2 in Sm. unfold same in Sm. cbn [filter] in Sm. destruct (key_eqb (n, a) (ekey p)); discriminate Sm. }
    edestruct (Fin _ es2 g2 (Entry (e_next f) n (match stored with Some s => if compiled then a else s | None => a end) (SSig a) (g_id g2) true) H2) as (f' & E' & I' & V' & N'); [reflexivity|reflexivity|exact C2|exact P2|reflexivity|reflexivity|reflexivity|reflexivity|reflexivity|rewrite Sm; cbn; lia|].
    exists f'. split; [exact E'|]. split; [exact I'|]. split; [|exact N']. rewrite V'. cbn [active e_next] in *. rewrite EA in *. rewrite !view_app, !view_some in *. rewrite L2, map_app.
    assert (Lx : live (x ++ d1 :: y) = live x ++ d1 :: live y) by (rewrite live_app; unfold live at 2; cbn [filter]; rewrite Ld; reflexivity). rewrite Lx in *. rewrite map_app in *. cbn [map] in *. rewrite <- !app_assoc.
    eapply (noah_full _ _ _ (view pre) (map it (live x)) (it d1) (map it (live y))).
    + change (map it (live x) ++ it d1 :: map it (live y)) with (map it (live x) ++ map it (d1 :: live y)). rewrite <- map_app. apply no_marker.
    + exact AM.
    + change (map it (live x) ++ it d1 :: map it (live y)) with (map it (live x) ++ map it (d1 :: live y)). rewrite <- map_app. apply count_same.
    + rewrite Es. cbn. lia.
    + apply same_iff. exact Kd.
    + intros z I. apply in_map_iff in I as (e & <- & I). rewrite <- same_iff. intros Q. assert (J : In e (same (n, a) (live x))) by (apply filter_In; split; assumption). rewrite Fx in J. destruct J.
Qed.
