(* PROOFS for C62, part 2: the inner loop *)
From Coq Require Import List Arith Bool Lia.
From Verif Require Import Str StrFacts FinishModel FinishProofs AaaModel AaaSpec AaaProofs.
Import ListNotations.
Open Scope list_scope. Open Scope nat_scope.

Definition wf (stk ns : list nat) (nx : nat) := NoDup stk /\ NoDup ns /\ (forall x, In x stk -> x < nx) /\ (forall x, In x ns -> x < nx).
Lemma nodup_swap (a : list nat) x y b : NoDup (a ++ x :: b) -> ~ In y a -> ~ In y b -> NoDup (a ++ y :: b).
Proof.
  intros H Ha Hb. pose proof (NoDup_remove_1 _ _ _ H) as K. induction a as [|z a IH]; cbn in *; [now constructor|].
  inversion H as [|? ? H1 H2]; subst. inversion K as [|? ? K1 K2]; subst. constructor; [|apply IH; auto]. rewrite in_app_iff in *. cbn in *. intuition.
Qed.
Lemma wf_drop_stk a x b ns nx : wf (a ++ x :: b) ns nx -> wf (a ++ b) ns nx.
Proof. intros (A & B & C & D). split; [now apply NoDup_remove_1 in A|]. split; [exact B|]. split; [|exact D]. intros y Hy. apply C. rewrite in_app_iff in *. cbn. tauto. Qed.
Lemma wf_drop_list stk p x q nx : wf stk (p ++ x :: q) nx -> wf stk (p ++ q) nx.
Proof. intros (A & B & C & D). split; [exact A|]. split; [now apply NoDup_remove_1 in B|]. split; [exact C|]. intros y Hy. apply D. rewrite in_app_iff in *. cbn. tauto. Qed.
Lemma wf_swap a b p q x nx : wf (a ++ x :: b) (p ++ x :: q) nx -> wf (a ++ nx :: b) (p ++ nx :: q) (S nx).
Proof.
  intros (A & B & C & D).
  assert (F : forall l : list nat, (forall x, In x l -> x < nx) -> ~ In nx l) by (intros l H Hn; specialize (H nx Hn); lia).
  assert (C' : forall y, In y (a ++ b) -> y < nx) by (intros y Hy; apply C; rewrite in_app_iff in *; cbn; tauto).
  assert (D' : forall y, In y (p ++ q) -> y < nx) by (intros y Hy; apply D; rewrite in_app_iff in *; cbn; tauto).
  pose proof (F _ C') as FC. pose proof (F _ D') as FD. rewrite in_app_iff in FC, FD.
  split; [apply nodup_swap with x; tauto|]. split; [apply nodup_swap with x; tauto|].
  split; intros y Hy; apply in_app_iff in Hy as [Hy|[<-|Hy]]; try lia; [specialize (C' y)|specialize (C' y)|specialize (D' y)|specialize (D' y)]; rewrite in_app_iff in *; intuition lia.
Qed.

Lemma split_live M Q A e B : M ++ Q = A ++ el e :: B -> ~ In (e_node e) (nodes M) -> exists Qa, A = M ++ Qa /\ Q = Qa ++ el e :: B.
Proof.
  revert A. induction M as [|m M IH]; intros A E H; [exists A; auto|]. destruct A as [|a A]; cbn in E.
  - exfalso. injection E as -> _. apply H. left. reflexivity.
  - injection E as <- E. destruct (IH A E) as (Qa & -> & ->); [|exists Qa; auto]. intros K. apply H. change (m :: M) with ([m] ++ M). rewrite nodes_app, in_app_iff. auto.
Qed.
Lemma len_snoc {A} (a : list A) x : List.length (a ++ [x]) = S (List.length a). Proof. rewrite app_length. cbn. lia. Qed.

Section phases.
Variable u : str.
(* once an element has been kept the bookmark is right after it, and what remains to be looked at lies before it *)
Lemma inner_B fe fb lower top X F N Y2 M : e_live F = true -> e_live N = true -> forall todo counter kept Y1 Q1 bm lst tg nx o,
  live Y1 = M ++ Q1 ->
  wf (lower ++ fe :: rev todo ++ kept ++ fb :: top) (nodes (live (X ++ Some F :: Y1 ++ Some N :: Y2))) nx ->
  (forall x, In x todo -> In x (nodes (live (X ++ Some F :: Y1 ++ Some N :: Y2))) -> In x (nodes Q1)) ->
  lst <> fb -> bm <= List.length X + 2 + List.length Y1 -> List.length X + 2 + List.length (live Y1) <= bm ->
  exists bm' lst' kept' Y1' Q1' tg' nx' o',
    inner fe fb (List.length (lower ++ fe :: rev todo)) counter bm lst (St (lower ++ fe :: rev todo ++ kept ++ fb :: top) (X ++ Some F :: Y1 ++ Some N :: Y2) tg nx o)
      = Some (bm', lst', St (lower ++ fe :: kept' ++ fb :: top) (X ++ Some F :: Y1' ++ Some N :: Y2) tg' nx' o')
    /\ walk_up todo counter fb lst kept (live X ++ M ++ el F :: Q1 ++ el N :: Bookmark :: live Y2) tg nx o = (lst', kept', live X ++ M ++ el F :: Q1' ++ el N :: Bookmark :: live Y2, tg', nx', o')
    /\ live Y1' = M ++ Q1' /\ bm' <= List.length X + 2 + List.length Y1' /\ List.length X + 2 + List.length (live Y1') <= bm'
    /\ wf (lower ++ fe :: kept' ++ fb :: top) (nodes (live (X ++ Some F :: Y1' ++ Some N :: Y2))) nx'
    /\ nx <= nx' /\ (forall x, x < nx -> tg' x = tg x) /\ (clean u (M ++ Q1) -> clean u (M ++ Q1')) /\ (forall y, In y (nodes Q1') -> In y (nodes Q1) \/ nx <= y).
Proof.
  intros LF LN. induction todo as [|x todo IH]; intros counter kept Y1 Q1 bm lst tg nx o EY W T NL B1 B2.
  { exists bm, lst, kept, Y1, Q1, tg, nx, o. cbn [rev app walk_up]. split; [|repeat (split; auto)].
    rewrite len_snoc. cbn [inner stack]. rewrite nth_mid, Nat.eqb_refl. reflexivity. }
  cbn [rev] in *. rewrite <- app_assoc in W. cbn [app] in W.
  assert (Es : lower ++ fe :: (rev todo ++ [x]) ++ kept ++ fb :: top = (lower ++ fe :: rev todo) ++ x :: kept ++ fb :: top) by (now rewrite <- !app_assoc).
  assert (Es' : lower ++ fe :: rev todo ++ x :: kept ++ fb :: top = (lower ++ fe :: rev todo) ++ x :: kept ++ fb :: top) by (now rewrite <- !app_assoc).
  assert (Ei : List.length (lower ++ fe :: rev todo ++ [x]) = S (List.length (lower ++ fe :: rev todo))) by (rewrite !app_length; cbn [List.length]; rewrite app_length; cbn; lia).
  rewrite Es, Ei. rewrite Es' in W. cbn [inner stack active tags next ops]. rewrite nth_mid.
  destruct (Nat.eqb_spec x fe) as [->|Nx].
  { exfalso. destruct W as (ND & _). apply nodup_parts in ND as (_ & _ & H & _). apply H. rewrite in_app_iff. cbn. auto. }
  assert (Ed : delete (List.length (lower ++ fe :: rev todo)) ((lower ++ fe :: rev todo) ++ x :: kept ++ fb :: top) = lower ++ fe :: rev todo ++ kept ++ fb :: top) by (rewrite delete_mid; now rewrite <- !app_assoc).
  cbn [walk_up].
  assert (Nl : nodes (live (X ++ Some F :: Y1 ++ Some N :: Y2)) = nodes (live X) ++ e_node F :: nodes M ++ nodes Q1 ++ e_node N :: nodes (live Y2)).
  { rewrite live_mid, live_mid, EY by assumption. rewrite !nodes_app. cbn [nodes flat_map el app]. fold (nodes (((M ++ Q1) ++ el N :: live Y2))). rewrite !nodes_app. cbn [nodes flat_map el app]. now rewrite <- !app_assoc. }
  destruct (in_dec Nat.eq_dec x (nodes (live (X ++ Some F :: Y1 ++ Some N :: Y2)))) as [Hin|Hout].
  2:{ rewrite find_node_miss by assumption. rewrite Ed.
      assert (Hl : ~ In x (nodes (live X ++ M ++ el F :: Q1 ++ el N :: Bookmark :: live Y2))).
      { rewrite Nl in Hout. repeat (rewrite !nodes_app in *; cbn [nodes flat_map el app] in * ). repeat first [rewrite in_app_iff in * |rewrite in_app_iff in Hout|progress cbn [In] in *]. fold nodes in *.
        clear - Hout. unfold nodes in *. rewrite ?flat_map_app in *. cbn [flat_map] in *. rewrite ?in_app_iff in *. cbn [In app] in *. rewrite ?in_app_iff in *. cbn [In] in *. tauto. }
      rewrite without_id by assumption. replace (if 3 <? S counter then live X ++ M ++ el F :: Q1 ++ el N :: Bookmark :: live Y2 else live X ++ M ++ el F :: Q1 ++ el N :: Bookmark :: live Y2) with (live X ++ M ++ el F :: Q1 ++ el N :: Bookmark :: live Y2) by now destruct (3 <? S counter).
      rewrite listed_none by assumption. apply IH; auto.
      - apply wf_drop_stk in W. now rewrite <- !app_assoc in W.
      - intros y Hy. apply T. now right. }
  pose proof (T x (or_introl eq_refl) Hin) as Hq.
  assert (Hq' : In x (nodes (live Y1))) by (rewrite EY, nodes_app, in_app_iff; auto).
  destruct (live_at x Y1 Hq') as (Ya & e & Yb & EYe & Le & Ne).
  pose proof W as (_ & NDl & _ & _). rewrite Nl in NDl.
  assert (Hx : ~ In x (nodes (live X)) /\ x <> e_node F /\ ~ In x (nodes M) /\ x <> e_node N /\ ~ In x (nodes (live Y2))).
  { apply nodup_app in NDl as (_ & ND1 & DX). inversion ND1 as [|? ? DF ND2]; subst. apply nodup_app in ND2 as (_ & ND3 & DM). apply nodup_app in ND3 as (_ & _ & DQ). cbn [In] in *. rewrite !in_app_iff in *. cbn [In] in *.
    split; [intros H; apply (DX _ H); rewrite !in_app_iff; auto|]. split; [intros H; apply DF; rewrite <- H; auto|]. split; [intros H; apply (DM _ H); rewrite !in_app_iff; auto|]. split; [intros H; apply (DQ _ Hq); left; auto|intros H; apply (DQ _ Hq); right; auto]. }
  destruct Hx as (X1 & X2 & X3 & X4 & X5).
  rewrite EYe, live_mid in EY by assumption. symmetry in EY. destruct (split_live _ _ _ _ _ EY) as (Qa & EYa & EQ); [congruence|].
  assert (XQ : ~ In x (nodes Qa) /\ ~ In x (nodes (live Yb))).
  { apply nodup_app in NDl as (_ & ND1 & _). inversion ND1 as [|? ? _ ND2]; subst. apply nodup_app in ND2 as (_ & ND3 & _). apply nodup_app in ND3 as (ND4 & _). rewrite nodes_app in ND4. apply nodup_parts in ND4. tauto. }
  destruct XQ as [XQa XYb].
  set (PRE := X ++ Some F :: Ya). set (POST := Yb ++ Some N :: Y2).
  assert (Ea : X ++ Some F :: Y1 ++ Some N :: Y2 = PRE ++ Some e :: POST) by (unfold PRE, POST; rewrite EYe; repeat (rewrite <- app_assoc; cbn [app]); reflexivity).
  assert (XP : ~ In x (nodes (live POST))).
  { unfold POST. rewrite live_mid, nodes_app, in_app_iff by assumption. cbn [nodes flat_map el app]. change (flat_map _ (live Y2)) with (nodes (live Y2)). cbn [In]. intuition. }
  assert (ESl : live X ++ M ++ el F :: Q1 ++ el N :: Bookmark :: live Y2 = (live X ++ M ++ el F :: Qa) ++ El x (e_name e) (e_token e) :: live Yb ++ el N :: Bookmark :: live Y2).
  { rewrite EQ. unfold el at 2. rewrite Ne. repeat (rewrite <- app_assoc; cbn [app]). reflexivity. }
  assert (XS1 : ~ In x (nodes (live X ++ M ++ el F :: Qa))).
  { rewrite !nodes_app, !in_app_iff. cbn [nodes flat_map el app]. change (flat_map _ Qa) with (nodes Qa). cbn [In]. intuition. }
  assert (XS2 : ~ In x (nodes (live Yb ++ el N :: Bookmark :: live Y2))).
  { rewrite !nodes_app, !in_app_iff. cbn [nodes flat_map el app]. change (flat_map _ (live Y2)) with (nodes (live Y2)). cbn [In]. intuition. }
  rewrite Ea. rewrite (find_node_hit x PRE e POST Le Ne XP). rewrite ESl.
  assert (NlP : nodes (live (PRE ++ Some e :: POST)) = nodes (live PRE) ++ x :: nodes (live POST)).
  { rewrite live_mid, nodes_app by assumption. cbn [nodes flat_map el app]. now rewrite Ne. }
  rewrite Ea in W. rewrite NlP in W.
  destruct (3 <? S counter) eqn:C3.
  - rewrite Ed. rewrite without_mid by assumption. rewrite listed_none by (rewrite nodes_app, in_app_iff; tauto).
    assert (Er : retire (List.length PRE) (PRE ++ Some e :: POST) = X ++ Some F :: (Ya ++ Some (dead e) :: Yb) ++ Some N :: Y2).
    { unfold POST. destruct Yb as [|s0 Yb0]; cbn [app]; rewrite retire_mid; unfold PRE; repeat (rewrite <- app_assoc; cbn [app]); reflexivity. }
    rewrite Er.
    assert (Elv : live (Ya ++ Some (dead e) :: Yb) = M ++ (Qa ++ live Yb)) by (rewrite live_app, live_dead by reflexivity; rewrite EYa, <- app_assoc; reflexivity).
    assert (Enl : nodes (live (X ++ Some F :: (Ya ++ Some (dead e) :: Yb) ++ Some N :: Y2)) = nodes (live PRE) ++ nodes (live POST)).
    { rewrite <- nodes_app. f_equal. unfold PRE, POST. rewrite live_mid by assumption. rewrite live_mid by assumption. rewrite Elv, EYa || rewrite Elv. rewrite live_mid by assumption. rewrite live_mid by assumption. rewrite ?EYa. repeat (rewrite <- app_assoc; cbn [app]). reflexivity. }
    assert (ES2 : (live X ++ M ++ el F :: Qa) ++ live Yb ++ el N :: Bookmark :: live Y2 = live X ++ M ++ el F :: (Qa ++ live Yb) ++ el N :: Bookmark :: live Y2) by (repeat (rewrite <- app_assoc; cbn [app]); reflexivity).
    rewrite ES2.
    assert (LY : List.length Y1 = List.length (Ya ++ Some (dead e) :: Yb)) by (rewrite EYe, !app_length; reflexivity).
    assert (LL : List.length (live Y1) = S (List.length (live (Ya ++ Some (dead e) :: Yb)))).
    { rewrite Elv, EYe, live_mid by assumption. rewrite EYa. rewrite !app_length. cbn [List.length]. rewrite ?app_length. lia. }
    destruct (IH (S counter) kept (Ya ++ Some (dead e) :: Yb) (Qa ++ live Yb) (if List.length PRE <? bm then bm - 1 else bm) lst tg nx o) as (bm' & lst' & kept' & Y1' & Q1' & tg' & nx' & o' & R1 & R2 & R3 & R4 & R5 & R6 & R7 & R8 & R9 & R10).
    + exact Elv.
    + rewrite Enl. apply wf_drop_list in W. apply wf_drop_stk in W. now rewrite <- !app_assoc in W.
    + intros y Hy Hyl. rewrite Enl in Hyl. assert (Hy1 : In y (nodes Q1)).
      { apply T; [now right|]. rewrite Ea, NlP, in_app_iff. cbn [In]. rewrite in_app_iff in Hyl. tauto. }
      rewrite EQ, nodes_app, in_app_iff in Hy1. cbn [nodes flat_map el app] in Hy1. rewrite nodes_app, in_app_iff. destruct Hy1 as [Hy1|[Hy1|Hy1]]; [tauto| |tauto].
      exfalso. destruct W as (_ & NDW & _). apply nodup_parts in NDW as (_ & _ & P1 & P2 & _). rewrite <- Hy1, Ne in Hyl. apply in_app_iff in Hyl. tauto.
    + exact NL.
    + rewrite <- LY. destruct (List.length PRE <? bm); lia.
    + destruct (List.length PRE <? bm); lia.
    + exists bm', lst', kept', Y1', Q1', tg', nx', o'. split; [exact R1|]. split; [exact R2|]. split; [exact R3|]. split; [exact R4|]. split; [exact R5|]. split; [exact R6|]. split; [exact R7|]. split; [exact R8|]. split.
      * intros CQ. apply R9. rewrite EQ in CQ. rewrite !clean_app in *. rewrite clean_cons in CQ. tauto.
      * intros y Hy. destruct (R10 y Hy) as [H|H]; [left|right; exact H]. rewrite EQ. rewrite nodes_app, in_app_iff in *. cbn [nodes flat_map el app In]. tauto.
  - rewrite nth_mid. rewrite listed_mid by assumption. rewrite replaced_mid by assumption.
    assert (Elf : (lst =? fb) = false) by now apply Nat.eqb_neq. rewrite Elf. rewrite !put_mid.
    set (e' := Entry nx (e_name e) (e_token e) (e_live e)).
    assert (Le' : e_live e' = true) by exact Le.
    assert (Er : PRE ++ Some e' :: POST = X ++ Some F :: (Ya ++ Some e' :: Yb) ++ Some N :: Y2).
    { unfold PRE, POST; repeat (rewrite <- app_assoc; cbn [app]); reflexivity. }
    rewrite Er.
    assert (Elv : live (Ya ++ Some e' :: Yb) = M ++ (Qa ++ el e' :: live Yb)) by (rewrite live_mid by assumption; rewrite EYa, <- app_assoc; reflexivity).
    assert (Enl : nodes (live (X ++ Some F :: (Ya ++ Some e' :: Yb) ++ Some N :: Y2)) = nodes (live PRE) ++ nx :: nodes (live POST)).
    { rewrite <- Er, live_mid, nodes_app by assumption. reflexivity. }
    assert (ES2 : (live X ++ M ++ el F :: Qa) ++ El nx (e_name e) (e_token e) :: live Yb ++ el N :: Bookmark :: live Y2 = live X ++ M ++ el F :: (Qa ++ el e' :: live Yb) ++ el N :: Bookmark :: live Y2) by (repeat (rewrite <- app_assoc; cbn [app]); reflexivity).
    rewrite ES2.
    assert (LY : List.length Y1 = List.length (Ya ++ Some e' :: Yb)) by (rewrite EYe, !app_length; reflexivity).
    assert (LL : List.length (live Y1) = List.length (live (Ya ++ Some e' :: Yb))).
    { rewrite Elv, EYe, live_mid by assumption. rewrite EYa. rewrite !app_length. cbn [List.length]. rewrite ?app_length. cbn [List.length]. lia. }
    assert (Ep : (lower ++ fe :: rev todo) ++ nx :: kept ++ fb :: top = lower ++ fe :: rev todo ++ (nx :: kept) ++ fb :: top) by (now rewrite <- !app_assoc).
    rewrite Ep.
    assert (Wo : forall y, In y (lower ++ fe :: rev todo ++ x :: kept ++ fb :: top) -> y < nx) by (intros y Hy; destruct W as (_ & _ & WC & _); apply WC; rewrite <- Es'; exact Hy).
    destruct (IH (S counter) (nx :: kept) (Ya ++ Some e' :: Yb) (Qa ++ el e' :: live Yb) bm nx (upd tg nx (e_name e, Html)) (S nx) (o ++ [New nx (e_name e) (e_token e); Move lst nx])) as (bm' & lst' & kept' & Y1' & Q1' & tg' & nx' & o' & R1 & R2 & R3 & R4 & R5 & R6 & R7 & R8 & R9 & R10).
    + exact Elv.
    + rewrite Enl, <- Ep. now apply wf_swap in W.
    + intros y Hy Hyl. assert (Yn : y < nx). { apply Wo. rewrite !in_app_iff. cbn [In]. rewrite !in_app_iff, <- in_rev. auto. }
      assert (Hyx : y <> x). { intros ->. destruct W as (NDs & _). apply nodup_parts in NDs as (_ & _ & P & _). apply P. rewrite in_app_iff. cbn [In]. rewrite <- in_rev. auto. }
      rewrite Enl in Hyl. assert (Hy1 : In y (nodes Q1)).
      { apply T; [now right|]. rewrite Ea, NlP, in_app_iff. cbn [In]. rewrite in_app_iff in Hyl. cbn [In] in Hyl. destruct Hyl as [?|[?|?]]; [auto|lia|auto]. }
      rewrite EQ, nodes_app, in_app_iff in Hy1. cbn [nodes flat_map el app] in Hy1. rewrite nodes_app, in_app_iff. cbn [nodes flat_map el app In]. destruct Hy1 as [Hy1|[Hy1|Hy1]]; [tauto|congruence|tauto].
    + intros ->. specialize (Wo fb). rewrite !in_app_iff in Wo. cbn [In] in Wo. rewrite !in_app_iff in Wo. cbn [In] in Wo. rewrite in_app_iff in Wo. cbn [In] in Wo. lia || (assert (fb < fb) by (apply Wo; auto 10); lia).
    + rewrite <- LY. exact B1.
    + rewrite <- LL. exact B2.
    + exists bm', lst', kept', Y1', Q1', tg', nx', o'. split; [exact R1|]. split; [exact R2|]. split; [exact R3|]. split; [exact R4|]. split; [exact R5|]. split; [exact R6|]. split; [lia|]. split; [|split].
      * intros y Hy. rewrite R8 by lia. unfold upd. destruct (Nat.eqb_spec y nx); [lia|reflexivity].
      * intros CQ. apply R9. rewrite EQ in CQ. rewrite !clean_app in *. rewrite clean_cons in CQ. rewrite clean_cons. cbn [e_name e']. tauto.
      * intros y Hy. destruct (R10 y Hy) as [H|H]; [|right; lia]. rewrite EQ. rewrite nodes_app, in_app_iff in *. cbn [nodes flat_map el app In e_node e'] in *. destruct H as [?|[?|?]]; [auto|right; lia|auto].
Qed.

Lemma final_B X F Y1 N Y2 G bm : bm <= List.length X + 2 + List.length Y1 -> List.length X + 2 <= bm ->
  exists Z1 Z2, Y1 = Z1 ++ Z2 /\ insert (bm - 1) (Some G) (retire (List.length X) (X ++ Some F :: Y1 ++ Some N :: Y2)) = (X ++ Some (dead F) :: Z1) ++ Some G :: Z2 ++ Some N :: Y2.
Proof.
  intros B1 B2. exists (firstn (bm - 2 - List.length X) Y1), (skipn (bm - 2 - List.length X) Y1). split; [symmetry; apply firstn_skipn|].
  assert (R : retire (List.length X) (X ++ Some F :: Y1 ++ Some N :: Y2) = X ++ Some (dead F) :: Y1 ++ Some N :: Y2) by (destruct Y1; cbn [app]; apply retire_mid).
  rewrite R. rewrite <- (firstn_skipn (bm - 2 - List.length X) Y1) at 1.
  assert (E : X ++ Some (dead F) :: (firstn (bm - 2 - List.length X) Y1 ++ skipn (bm - 2 - List.length X) Y1) ++ Some N :: Y2
              = (X ++ Some (dead F) :: firstn (bm - 2 - List.length X) Y1) ++ skipn (bm - 2 - List.length X) Y1 ++ Some N :: Y2) by (repeat (rewrite <- app_assoc; cbn [app]); reflexivity).
  rewrite E. replace (bm - 1) with (List.length (X ++ Some (dead F) :: firstn (bm - 2 - List.length X) Y1)); [apply insert_mid|].
  rewrite app_length. cbn [List.length]. rewrite firstn_length_le by lia. lia.
Qed.
Lemma ordered_cons_r u2 v q : ~ In v u2 -> ordered (v :: u2) q -> ordered u2 q.
Proof.
  intros H O. apply (ordered_part (v :: u2)); [exact O|]. cbn [filter]. rewrite (proj2 (mem_false v u2) H). apply filter_self.
Qed.
Lemma in_nodes_cons x e l : In x (nodes (el e :: l)) <-> e_node e = x \/ In x (nodes l). Proof. reflexivity. Qed.
Lemma nodes_cons e l : nodes (el e :: l) = e_node e :: nodes l. Proof. reflexivity. Qed.
Lemma nodes_bm l : nodes (Bookmark :: l) = nodes l. Proof. reflexivity. Qed.

(* from the furthest block down: nothing is kept yet *)
Lemma inner_A fe fb lower top X F M : e_live F = true -> e_node F = fe -> forall todo counter Y Q tg nx o,
  live Y = M ++ Q ->
  wf (lower ++ fe :: rev todo ++ fb :: top) (nodes (live (X ++ Some F :: Y))) nx ->
  (forall x, In x (rev todo ++ fb :: top) -> ~ In x (nodes (live X)) /\ ~ In x (nodes M)) ->
  ordered (rev todo ++ fb :: top) (nodes Q) -> clean u (M ++ Q) ->
  exists bm' lst' kept' act' l' tg' nx' o',
    inner fe fb (List.length (lower ++ fe :: rev todo)) counter (S (List.length X)) fb (St (lower ++ fe :: rev todo ++ fb :: top) (X ++ Some F :: Y) tg nx o)
      = Some (bm', lst', St (lower ++ fe :: kept' ++ fb :: top) act' tg' nx' o')
    /\ walk_up todo counter fb fb [] (live X ++ M ++ el F :: Bookmark :: Q) tg nx o = (lst', kept', l', tg', nx', o')
    /\ (forall G, e_live G = true -> exists X' Y' M' Q', insert (bm' - 1) (Some G) (retire (List.length X) act') = X' ++ Some G :: Y' /\ live Y' = M' ++ Q'
        /\ map (fun i => if is_bookmark i then el G else i) (without fe l') = live X' ++ M' ++ el G :: Q' /\ clean u (M' ++ Q')
        /\ (forall x, In x top -> ~ In x (nodes (live X')) /\ ~ In x (nodes M')) /\ ordered top (nodes Q')
        /\ wf (lower ++ fe :: kept' ++ fb :: top) (nodes (live X') ++ nodes (live Y')) nx')
    /\ nx <= nx' /\ (forall x, x < nx -> tg' x = tg x).
Proof.
  intros LF NF. induction todo as [|x todo IH]; intros counter Y Q tg nx o EY W D O C.
  { exists (S (List.length X)), fb, [], (X ++ Some F :: Y), (live X ++ M ++ el F :: Bookmark :: Q), tg, nx, o. cbn [rev app walk_up] in *.
    split; [rewrite len_snoc; cbn [inner stack]; rewrite nth_mid, Nat.eqb_refl; reflexivity|]. split; [reflexivity|]. split; [|auto].
    intros G LG. cbn [Nat.sub]. rewrite Nat.sub_0_r.
    assert (Nl : nodes (live (X ++ Some F :: Y)) = nodes (live X) ++ fe :: nodes M ++ nodes Q).
    { rewrite live_mid, EY, nodes_app by assumption. cbn [nodes flat_map el app]. fold (nodes (M ++ Q)). now rewrite nodes_app, NF. }
    rewrite Nl in W. pose proof W as (ND & NDl & _ & _). apply nodup_parts in NDl as (_ & _ & P1 & P2 & _). rewrite in_app_iff in P2.
    assert (Ew : map (fun i => if is_bookmark i then el G else i) (without fe (live X ++ M ++ el F :: Bookmark :: Q)) = live X ++ M ++ el G :: Q).
    { replace (live X ++ M ++ el F :: Bookmark :: Q) with ((live X ++ M) ++ El fe (e_name F) (e_token F) :: Bookmark :: Q) by (unfold el; rewrite NF, <- app_assoc; reflexivity).
      rewrite without_mid; [|rewrite nodes_app, in_app_iff; tauto|rewrite nodes_bm; tauto].
      assert (UM : unmarked M /\ unmarked Q) by (apply unmarked_app; rewrite <- EY; apply live_unmarked).
      rewrite place_mid; [now rewrite <- app_assoc|apply unmarked_app; split; [apply live_unmarked|tauto]|tauto]. }
    assert (Ot : ordered top (nodes Q)). { apply ordered_cons_r with fb; [|exact O]. apply nodup_parts in ND as (_ & ND & _). now inversion ND. }
    assert (W' : wf (lower ++ fe :: fb :: top) (nodes (live X) ++ nodes (live Y)) nx) by (rewrite EY, nodes_app; now apply wf_drop_list in W).
    assert (Dt : forall x, In x top -> ~ In x (nodes (live X)) /\ ~ In x (nodes M)) by (intros x Hx; apply D; now right).
    destruct Y as [|s Y].
    - exists X, [], M, Q. split; [rewrite retire_last; rewrite <- (app_nil_r X) at 2; apply insert_mid|]. do 5 (split; [assumption|]). assumption.
    - exists X, (Some (dead F) :: s :: Y), M, Q. split; [rewrite retire_mid; apply insert_mid|]. rewrite live_dead by reflexivity. do 5 (split; [assumption|]). assumption. }
  cbn [rev] in *. rewrite <- app_assoc in W, D, O. cbn [app] in W, D, O.
  assert (Es : lower ++ fe :: (rev todo ++ [x]) ++ fb :: top = (lower ++ fe :: rev todo) ++ x :: fb :: top) by (now rewrite <- !app_assoc).
  assert (Es' : lower ++ fe :: rev todo ++ x :: fb :: top = (lower ++ fe :: rev todo) ++ x :: fb :: top) by (now rewrite <- !app_assoc).
  assert (Ei : List.length (lower ++ fe :: rev todo ++ [x]) = S (List.length (lower ++ fe :: rev todo))) by (rewrite !app_length; cbn [List.length]; rewrite app_length; cbn; lia).
  rewrite Es, Ei. rewrite Es' in W. cbn [inner stack active tags next ops]. rewrite nth_mid.
  destruct (Nat.eqb_spec x fe) as [->|Nx].
  { exfalso. destruct W as (ND & _). apply nodup_parts in ND as (_ & _ & H & _). apply H. rewrite in_app_iff. cbn. auto. }
  assert (Ed : delete (List.length (lower ++ fe :: rev todo)) ((lower ++ fe :: rev todo) ++ x :: fb :: top) = lower ++ fe :: rev todo ++ fb :: top) by (rewrite delete_mid; now rewrite <- !app_assoc).
  assert (Du : forall y, In y (rev todo ++ fb :: top) -> ~ In y (nodes (live X)) /\ ~ In y (nodes M)) by (intros y Hy; apply D; rewrite in_app_iff in *; cbn [In]; tauto).
  assert (NDu : NoDup (rev todo ++ x :: fb :: top)).
  { destruct W as (ND & _). rewrite <- Es' in ND. apply nodup_parts in ND. tauto. }
  assert (Ou : ordered (rev todo ++ fb :: top) (nodes Q)).
  { apply (ordered_part (rev todo ++ x :: fb :: top)); [exact O|]. apply nodup_parts in NDu as (_ & _ & U1 & U2 & _). rewrite filter_app. cbn [filter].
    rewrite (proj2 (mem_false x (rev todo ++ fb :: top))) by (rewrite in_app_iff; tauto). cbv iota.
    change (if mem fb (rev todo ++ fb :: top) then fb :: filter (fun x0 => mem x0 (rev todo ++ fb :: top)) top else filter (fun x0 => mem x0 (rev todo ++ fb :: top)) top) with (filter (fun x0 => mem x0 (rev todo ++ fb :: top)) (fb :: top)).
    rewrite <- filter_app. apply filter_self. }
  destruct (D x) as [X1 X3]; [rewrite in_app_iff; cbn [In]; auto|].
  cbn [walk_up].
  assert (Nl : nodes (live (X ++ Some F :: Y)) = nodes (live X) ++ fe :: nodes M ++ nodes Q).
  { rewrite live_mid, EY, nodes_app by assumption. rewrite nodes_cons, nodes_app, NF. reflexivity. }
  assert (UM : unmarked M /\ unmarked Q) by (apply unmarked_app; rewrite <- EY; apply live_unmarked). destruct UM as [UM UQ].
  destruct (in_dec Nat.eq_dec x (nodes Q)) as [Hq|Hout].
  2:{ assert (Hn : ~ In x (nodes (live (X ++ Some F :: Y)))) by (rewrite Nl; rewrite in_app_iff; cbn [In]; rewrite in_app_iff; intuition).
      rewrite find_node_miss by assumption. rewrite Ed.
      assert (Hl : ~ In x (nodes (live X ++ M ++ el F :: Bookmark :: Q))) by (rewrite !nodes_app, nodes_cons, nodes_bm, !in_app_iff; cbn [In]; rewrite NF; intuition).
      rewrite without_id by assumption. replace (if 3 <? S counter then live X ++ M ++ el F :: Bookmark :: Q else live X ++ M ++ el F :: Bookmark :: Q) with (live X ++ M ++ el F :: Bookmark :: Q) by now destruct (3 <? S counter).
      rewrite listed_none by assumption. apply IH; auto. apply wf_drop_stk in W. now rewrite <- !app_assoc in W. }
  assert (Hq' : In x (nodes (live Y))) by (rewrite EY, nodes_app, in_app_iff; auto).
  destruct (live_at x Y Hq') as (Ya & e & Yb & EYe & Le & Ne).
  pose proof W as (_ & NDl & _ & _). rewrite Nl in NDl.
  pose proof EY as EY'. rewrite EYe, live_mid in EY by assumption. symmetry in EY. destruct (split_live _ _ _ _ _ EY) as (Qa & EYa & EQ); [congruence|].
  assert (XQ : ~ In x (nodes Qa) /\ ~ In x (nodes (live Yb))).
  { apply nodup_parts in NDl as (_ & ND1 & _). apply nodup_app in ND1 as (_ & ND1 & _). rewrite EQ, nodes_app, nodes_cons, Ne in ND1. apply nodup_parts in ND1. tauto. }
  destruct XQ as [XQa XYb].
  set (PRE := X ++ Some F :: Ya).
  assert (Ea : X ++ Some F :: Y = PRE ++ Some e :: Yb) by (unfold PRE; rewrite EYe; repeat (rewrite <- app_assoc; cbn [app]); reflexivity).
  assert (ESl : live X ++ M ++ el F :: Bookmark :: Q = (live X ++ M ++ el F :: Bookmark :: Qa) ++ El x (e_name e) (e_token e) :: live Yb).
  { rewrite EQ. unfold el at 2. rewrite Ne. repeat (rewrite <- app_assoc; cbn [app]). reflexivity. }
  assert (XS1 : ~ In x (nodes (live X ++ M ++ el F :: Bookmark :: Qa))) by (rewrite !nodes_app, nodes_cons, nodes_bm, !in_app_iff; cbn [In]; rewrite NF; intuition).
  rewrite Ea. rewrite (find_node_hit x PRE e Yb Le Ne XYb). rewrite ESl.
  assert (NlP : nodes (live (PRE ++ Some e :: Yb)) = nodes (live PRE) ++ x :: nodes (live Yb)).
  { rewrite live_mid, nodes_app, nodes_cons by assumption. now rewrite Ne. }
  rewrite Ea in W. rewrite NlP in W.
  assert (EnP : nodes (live PRE) = nodes (live X) ++ fe :: nodes M ++ nodes Qa).
  { unfold PRE. rewrite live_mid, EYa, nodes_app, nodes_cons, nodes_app, NF by assumption. reflexivity. }
  assert (LP : List.length PRE = S (List.length X + List.length Ya)) by (unfold PRE; rewrite app_length; cbn [List.length]; lia).
  destruct (3 <? S counter) eqn:C3.
  - rewrite Ed. rewrite without_mid by assumption. rewrite listed_none by (rewrite nodes_app, in_app_iff; tauto).
    replace (List.length PRE <? S (List.length X)) with false by (symmetry; apply Nat.ltb_ge; lia).
    assert (Er : exists Y'', retire (List.length PRE) (PRE ++ Some e :: Yb) = X ++ Some F :: Y'' /\ live Y'' = M ++ (Qa ++ live Yb)).
    { destruct Yb as [|s0 Yb0].
      - exists Ya. rewrite retire_last. split; [reflexivity|]. rewrite EYa. cbn. now rewrite app_nil_r.
      - exists (Ya ++ Some (dead e) :: s0 :: Yb0). rewrite retire_mid. split; [unfold PRE; repeat (rewrite <- app_assoc; cbn [app]); reflexivity|]. rewrite live_app, live_dead, EYa, <- app_assoc by reflexivity. reflexivity. }
    destruct Er as (Y'' & Er & EY2). rewrite Er.
    assert (ES2 : (live X ++ M ++ el F :: Bookmark :: Qa) ++ live Yb = live X ++ M ++ el F :: Bookmark :: (Qa ++ live Yb)) by (repeat (rewrite <- app_assoc; cbn [app]); reflexivity).
    rewrite ES2. apply IH; auto.
    + assert (Enl : nodes (live (X ++ Some F :: Y'')) = nodes (live PRE) ++ nodes (live Yb)).
      { rewrite EnP, live_mid, EY2, nodes_app, nodes_cons, !nodes_app, NF by assumption. repeat (rewrite <- app_assoc; cbn [app]). reflexivity. }
      rewrite Enl. apply wf_drop_list in W. apply wf_drop_stk in W. now rewrite <- !app_assoc in W.
    + assert (Ef : nodes (Qa ++ live Yb) = filter (fun y => negb (y =? x)) (nodes Q)).
      { rewrite EQ, !nodes_app, nodes_cons, filter_app. cbn [filter]. rewrite Ne, Nat.eqb_refl. cbn [negb].
        rewrite !filter_all; [reflexivity| |]; intros y Hy; apply negb_true_iff, Nat.eqb_neq; intros ->; tauto. }
      rewrite Ef. now apply ordered_filter.
    + rewrite EQ in C. rewrite !clean_app in *. rewrite clean_cons in C. tauto.
  - rewrite nth_mid. rewrite listed_mid by assumption. rewrite replaced_mid by assumption. rewrite Nat.eqb_refl. rewrite !put_mid.
    set (e' := Entry nx (e_name e) (e_token e) (e_live e)).
    assert (Le' : e_live e' = true) by exact Le.
    assert (Er : PRE ++ Some e' :: Yb = X ++ Some F :: Ya ++ Some e' :: Yb) by (unfold PRE; repeat (rewrite <- app_assoc; cbn [app]); reflexivity).
    rewrite Er.
    assert (Fr : forall y, In y (nodes (live PRE)) \/ In y (nodes (live Yb)) -> y < nx).
    { intros y Hy. destruct W as (_ & _ & _ & WD). apply WD. rewrite in_app_iff. cbn [In]. tauto. }
    assert (Ebm : after nx Bookmark (no_bookmark ((live X ++ M ++ el F :: Bookmark :: Qa) ++ El nx (e_name e) (e_token e) :: live Yb)) = live X ++ M ++ el F :: Qa ++ el e' :: Bookmark :: live Yb).
    { assert (UQa : unmarked Qa) by (rewrite EQ in UQ; apply unmarked_app in UQ; tauto).
      assert (Enb : no_bookmark ((live X ++ M ++ el F :: Bookmark :: Qa) ++ El nx (e_name e) (e_token e) :: live Yb) = (live X ++ M ++ el F :: Qa) ++ El nx (e_name e) (e_token e) :: live Yb).
      { rewrite no_bookmark_app, !no_bookmark_app. rewrite (no_bookmark_id (live X)) by apply live_unmarked. rewrite (no_bookmark_id M) by assumption.
        change (no_bookmark (el F :: Bookmark :: Qa)) with (el F :: no_bookmark Qa). rewrite (no_bookmark_id Qa) by assumption.
        change (no_bookmark (El nx (e_name e) (e_token e) :: live Yb)) with (El nx (e_name e) (e_token e) :: no_bookmark (live Yb)). rewrite no_bookmark_id by apply live_unmarked. reflexivity. }
      rewrite Enb, after_mid; [repeat (rewrite <- app_assoc; cbn [app]); reflexivity| |].
      - intros H. assert (nx < nx); [|lia]. apply Fr. left. rewrite EnP. rewrite !nodes_app, nodes_cons, NF in H. rewrite !in_app_iff in *. cbn [In] in *. rewrite in_app_iff. tauto.
      - intros H. assert (nx < nx); [|lia]. apply Fr. now right. }
    rewrite Ebm.
    assert (Nq : nodes Q = nodes Qa ++ x :: nodes (live Yb)) by (rewrite EQ, nodes_app, nodes_cons, Ne; reflexivity).
    assert (NDq : NoDup (nodes Qa ++ x :: nodes (live Yb))).
    { rewrite <- Nq. apply nodup_parts in NDl as (_ & ND1 & _). apply nodup_app in ND1. tauto. }
    rewrite Nq in O. destruct (ordered_split _ _ _ _ _ NDu NDq O) as (T1 & T2 & T3).
    assert (Enl : nodes (live (X ++ Some F :: Ya ++ Some e' :: Yb)) = nodes (live PRE) ++ nx :: nodes (live Yb)) by (rewrite <- Er, live_mid, nodes_app, nodes_cons by assumption; reflexivity).
    assert (Ep : (lower ++ fe :: rev todo) ++ nx :: fb :: top = lower ++ fe :: rev todo ++ [nx] ++ fb :: top) by (now rewrite <- !app_assoc).
    rewrite Ep. cbv zeta.
    assert (Wo : forall y, In y (lower ++ fe :: rev todo ++ x :: fb :: top) -> y < nx) by (intros y Hy; destruct W as (_ & _ & WC & _); apply WC; rewrite <- Es'; exact Hy).
    assert (NDs : NoDup (lower ++ fe :: rev todo ++ x :: fb :: top)) by (rewrite Es'; apply W).
    destruct (inner_B fe fb lower top X F e' Yb M LF Le' todo (S counter) [nx] Ya Qa (S (List.length PRE)) nx (upd tg nx (e_name e, Html)) (S nx) (o ++ [New nx (e_name e) (e_token e); Move fb nx])) as (bm' & lst' & kept' & Y1' & Q1' & tg' & nx' & o' & R1 & R2 & R3 & R4 & R5 & R6 & R7 & R8 & R9 & R10).
    + exact EYa.
    + rewrite Enl, <- Ep. now apply wf_swap in W.
    + intros y Hy Hyl. assert (Hy2 : In y (rev todo)) by now apply -> in_rev. assert (Yn : y < nx) by (apply Wo; rewrite in_app_iff; cbn [In]; rewrite in_app_iff; auto).
      rewrite Enl, EnP in Hyl. destruct (Du y) as [D1 D2]; [apply in_app_iff; auto|].
      assert (Yfe : y <> fe). { intros ->. apply nodup_parts in NDs as (_ & _ & _ & P & _). apply P. apply in_app_iff. auto. }
      apply T1; [exact Hy2|]. rewrite !in_app_iff in Hyl. cbn [In] in Hyl. rewrite in_app_iff in Hyl. rewrite in_app_iff. cbn [In]. destruct Hyl as [[?|[?|[?|?]]]|[?|?]]; try tauto; try congruence; lia.
    + intros <-. assert (nx < nx); [|lia]. apply Wo. rewrite in_app_iff. cbn [In]. rewrite in_app_iff. cbn [In]. auto 10.
    + rewrite LP. lia.
    + rewrite LP. assert (LL : List.length (live Ya) <= List.length Ya).
      { clear. induction Ya as [|[s|] Ya IH]; [cbn; lia| |]; unfold live in *; cbn [flat_map]; rewrite ?app_length; [destruct (e_live s)|]; cbn [List.length]; lia. }
      fold (live Ya). lia.
    + exists bm', lst', kept', (X ++ Some F :: Y1' ++ Some e' :: Yb), (live X ++ M ++ el F :: Q1' ++ el e' :: Bookmark :: live Yb), tg', nx', o'.
      split; [exact R1|]. split; [exact R2|]. split; [|split; [lia|]].
      2:{ intros y Hy. rewrite R8 by lia. unfold upd. destruct (Nat.eqb_spec y nx); [lia|reflexivity]. }
      intros G LG. destruct (final_B X F Y1' e' Yb G bm') as (Z1 & Z2 & EZ & Ein); [exact R4|lia|].
      exists (X ++ Some (dead F) :: Z1), (Z2 ++ Some e' :: Yb), (live Z2 ++ [el e']), (live Yb). split; [exact Ein|].
      assert (EX' : live (X ++ Some (dead F) :: Z1) = live X ++ live Z1) by (rewrite live_app, live_dead by reflexivity; reflexivity).
      assert (EZ' : live Z1 ++ live Z2 = M ++ Q1') by (rewrite <- live_app, <- EZ; exact R3).
      assert (Ef : nodes (live (X ++ Some F :: Y1' ++ Some e' :: Yb)) = nodes (live X) ++ fe :: nodes M ++ nodes Q1' ++ nx :: nodes (live Yb)).
      { rewrite live_mid, live_mid, R3, nodes_app, nodes_cons, nodes_app, nodes_cons, nodes_app, NF by assumption. rewrite <- app_assoc. reflexivity. }
      rewrite Ef in R6. pose proof R6 as (_ & NDf & _ & _). apply nodup_parts in NDf as (_ & _ & F1 & F2 & _).
      split; [rewrite live_mid by assumption; rewrite <- app_assoc; reflexivity|]. split; [|split; [|split; [|split]]].
      * replace (live X ++ M ++ el F :: Q1' ++ el e' :: Bookmark :: live Yb) with ((live X ++ M) ++ El fe (e_name F) (e_token F) :: Q1' ++ el e' :: Bookmark :: live Yb) by (unfold el; rewrite NF, <- app_assoc; reflexivity).
        rewrite !in_app_iff in F2. cbn [In] in F2.
        rewrite without_mid; [|rewrite nodes_app, in_app_iff; tauto|rewrite nodes_app, nodes_cons, nodes_bm, in_app_iff; cbn [In e_node e']; tauto].
        replace ((live X ++ M) ++ Q1' ++ el e' :: Bookmark :: live Yb) with ((live X ++ M ++ Q1' ++ [el e']) ++ Bookmark :: live Yb) by (repeat (rewrite <- app_assoc; cbn [app]); reflexivity).
        rewrite place_mid; [| |apply live_unmarked].
        -- rewrite EX'. rewrite (app_assoc M Q1'), <- EZ'. repeat (rewrite <- app_assoc; cbn [app]). reflexivity.
        -- apply unmarked_app; split; [apply live_unmarked|]. rewrite app_assoc, <- R3. apply unmarked_app. split; [apply live_unmarked|]. intros i [<-|[]]. reflexivity.
      * assert (CQ : clean u (M ++ Q1') /\ clean u (el e' :: live Yb)).
        { rewrite EQ in C. rewrite app_assoc, clean_app, clean_cons in C. split; [apply R9; tauto|]. apply clean_cons. cbn [e_name e']. tauto. }
        destruct CQ as [C1 C2]. rewrite <- EZ' in C1. rewrite clean_app in C1. rewrite <- app_assoc. cbn [app]. apply clean_app. tauto.
      * intros y Hy. assert (Hyu : In y (rev todo ++ fb :: top)) by (rewrite in_app_iff; cbn [In]; auto). destruct (Du y Hyu) as [D1 D2].
        assert (Yn : y < nx) by (apply Wo; rewrite in_app_iff; cbn [In]; rewrite in_app_iff; cbn [In]; auto 10).
        assert (HQ1 : ~ In y (nodes Q1')).
        { intros H. destruct (R10 y H) as [H'|H']; [|lia]. assert (H2 : In y (nodes (live Yb))) by (apply T2; [now right|rewrite in_app_iff; auto]). apply nodup_parts in NDq as (_ & _ & _ & _ & P). exact (P y H' H2). }
        assert (HZ : ~ In y (nodes (live Z1)) /\ ~ In y (nodes (live Z2))).
        { assert (H : ~ In y (nodes (live Z1 ++ live Z2))) by (rewrite EZ', nodes_app, in_app_iff; tauto). rewrite nodes_app, in_app_iff in H. tauto. }
        split; [rewrite EX', nodes_app, in_app_iff; tauto|]. rewrite nodes_app, in_app_iff, nodes_cons. cbn [In nodes flat_map e_node e']. intros [?|[?|[]]]; [tauto|lia].
      * apply ordered_cons_r with fb; [|exact T3]. apply nodup_parts in NDu as (_ & ND & _). now inversion ND.
      * assert (El' : nodes (live (X ++ Some (dead F) :: Z1)) ++ nodes (live (Z2 ++ Some e' :: Yb)) = nodes (live X) ++ nodes M ++ nodes Q1' ++ nx :: nodes (live Yb)).
        { rewrite EX', (live_mid Z2) by assumption. rewrite !nodes_app, nodes_cons. rewrite <- app_assoc, (app_assoc (nodes (live Z1))), <- nodes_app, EZ', nodes_app, <- app_assoc. reflexivity. }
        rewrite El'. now apply wf_drop_list in R6.
Qed.
End phases.
