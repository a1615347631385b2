(* PROOFS for C62, part 3: the outer loop *)
From Coq Require Import List Arith Bool String Lia.
From Verif Require Import Str StrFacts FinishModel FinishProofs AaaModel AaaSpec AaaProofs AaaProofs2.
Import ListNotations.
Open Scope list_scope. Open Scope nat_scope.

Lemma cut_at_mid x a b : ~ In x a -> cut_at x (a ++ x :: b) = Some (a, b).
Proof. induction a as [|y a IH]; cbn; intros H; [now rewrite Nat.eqb_refl|]. destruct (Nat.eqb_spec y x) as [->|]; [tauto|]. rewrite IH by tauto. reflexivity. Qed.
Lemma cut_at_none x l : ~ In x l -> cut_at x l = None.
Proof. induction l as [|y l IH]; cbn; intros H; [reflexivity|]. destruct (Nat.eqb_spec y x) as [->|]; [tauto|]. rewrite IH by tauto. reflexivity. Qed.
Lemma index_none x l : ~ In x l -> index_of x l = None.
Proof. induction l as [|y l IH]; cbn; intros H; [reflexivity|]. destruct (Nat.eqb_spec y x) as [->|]; [tauto|]. rewrite IH by tauto. reflexivity. Qed.
Lemma cut_first_spec p l : match cut_first p l with None => filter p l = [] | Some (a, x, b) => l = a ++ x :: b /\ p x = true /\ filter p a = [] end.
Proof.
  induction l as [|y l IH]; cbn; [reflexivity|]. destruct (p y) eqn:E; [auto|]. destruct (cut_first p l) as [[[a x] b]|]; [|exact IH]. destruct IH as (-> & H & K). cbn. rewrite E. auto.
Qed.

Section outer.
Variables special boundary : tag -> bool.
Lemma furthest_cut s l i : furthest special s l i = match cut_first (fun x => special (tags s x)) l with None => None | Some (a, x, b) => Some (x, i + List.length a) end.
Proof.
  revert i. induction l as [|y l IH]; intros i; cbn; [reflexivity|]. destruct (special (tags s y)); [cbn; now rewrite Nat.add_0_r|]. rewrite IH. destruct (cut_first _ l) as [[[a x] b]|]; [|reflexivity]. cbn [List.length]. do 2 f_equal. lia.
Qed.
Definition lb (tg : nat -> tag) (l : list nat) := fix go i := match i with O => None | S i => match nth_error l i with Some x => if boundary (tg x) then Some i else go i | None => go i end end.
Lemma lb_last s : last_boundary boundary s = lb (tags s) (stack s) (List.length (stack s)). Proof. reflexivity. Qed.
Lemma lb_app tg l m n : n <= List.length l -> lb tg (l ++ m) n = lb tg l n.
Proof. induction n as [|n IH]; intros H; [reflexivity|]. cbn [lb]. rewrite nth_error_app1 by lia. rewrite IH by lia. reflexivity. Qed.
Lemma lb_bound tg l n b : lb tg l n = Some b -> b < n.
Proof. induction n as [|n IH]; cbn [lb]; [discriminate|]. destruct (nth_error l n) as [x|]; [destruct (boundary (tg x))|]; intros H; try (injection H as <-; lia); specialize (IH H); lia. Qed.
Lemma lb_above tg l m : if existsb (fun x => boundary (tg x)) m then exists b, lb tg (l ++ m) (List.length (l ++ m)) = Some b /\ List.length l <= b else lb tg (l ++ m) (List.length (l ++ m)) = lb tg l (List.length l).
Proof.
  induction m as [|x m IH] using rev_ind; [cbn; now rewrite app_nil_r|]. rewrite existsb_app. cbn [existsb]. rewrite orb_false_r, app_assoc, len_snoc. cbn [lb]. rewrite nth_mid. destruct (boundary (tg x)).
  - rewrite orb_true_r. exists (List.length (l ++ m)). split; [reflexivity|]. rewrite app_length. lia.
  - rewrite orb_false_r, lb_app by lia. exact IH.
Qed.
Lemma in_scope_above lower fe above s : lower <> [] -> stack s = lower ++ fe :: above -> in_scope boundary (List.length lower) s = negb (existsb (fun x => boundary (tags s x)) above).
Proof.
  intros L E. unfold in_scope. rewrite lb_last, E. destruct (List.length lower) as [|n] eqn:EL; [destruct lower; [tauto|discriminate]|]. rewrite <- EL.
  replace (lower ++ fe :: above) with ((lower ++ [fe]) ++ above) by (rewrite <- app_assoc; reflexivity). pose proof (lb_above (tags s) (lower ++ [fe]) above) as H.
  destruct (existsb _ above).
  - destruct H as (b & -> & H). rewrite len_snoc in H. cbn [negb]. apply Nat.leb_gt. lia.
  - rewrite H. destruct (lb (tags s) (lower ++ [fe]) (List.length (lower ++ [fe]))) as [b|] eqn:Eb; [|reflexivity]. apply lb_bound in Eb. rewrite len_snoc in Eb. cbn [negb]. apply Nat.leb_le. lia.
Qed.

Variable u : str.
Lemma live_without X F M Q : ~ In (e_node F) (nodes (live X)) -> ~ In (e_node F) (nodes M) -> ~ In (e_node F) (nodes Q) -> without (e_node F) (live X ++ M ++ el F :: Q) = live X ++ M ++ Q.
Proof.
  intros A B C. rewrite (app_assoc (live X) M). unfold el. rewrite without_mid; [now rewrite <- app_assoc|rewrite nodes_app, in_app_iff; tauto|exact C].
Qed.
Lemma wf_insert a b p q nx : wf (a ++ b) (p ++ q) nx -> wf (a ++ nx :: b) (p ++ nx :: q) (S nx).
Proof.
  intros (A & B & C & D).
  assert (F : forall l l' : list nat, NoDup (l ++ l') -> (forall x, In x (l ++ l') -> x < nx) -> NoDup (l ++ nx :: l')).
  { intros l l' N H. apply NoDup_Add with nx (l ++ l'); [apply Add_app|]. split; [exact N|]. intros K. specialize (H nx K). lia. }
  split; [now apply F|]. split; [now apply F|]. split; intros y Hy; apply in_app_iff in Hy as [Hy|[<-|Hy]]; try lia; [specialize (C y)|specialize (C y)|specialize (D y)|specialize (D y)]; rewrite in_app_iff in *; intuition lia.
Qed.

Lemma rounds_ok : forall n X F Y M Q lower above tg nx o,
  e_live F = true -> str_eqb (e_name F) u = true -> live Y = M ++ Q -> clean u (M ++ Q) ->
  wf (lower ++ e_node F :: above) (nodes (live (X ++ Some F :: Y))) nx ->
  (forall x, In x above -> ~ In x (nodes (live X)) /\ ~ In x (nodes M)) ->
  ordered above (nodes Q) -> lower <> [] -> (M = [] \/ existsb (fun x => boundary (tg x)) above = false) ->
  exists s', rounds special boundary n u (St (lower ++ e_node F :: above) (X ++ Some F :: Y) tg nx o) = Some s' /\
  match std_rounds special boundary n u (Std (lower ++ e_node F :: above) (live X ++ M ++ el F :: Q) tg nx o) with
  | AnyOther _ => False
  | Done d => agree s' d /\ live (active s') = d_list d
  | Exhausted d => agree s' d /\ one_later (live (active s')) (d_list d) /\ n <= List.length (filter (fun x => special (tg x)) above)
  end.
Proof.
  induction n as [|n IH]; intros X F Y M Q lower above tg nx o LF NF EY C W D O L B.
  { eexists. split; [reflexivity|]. cbn [std_rounds]. split; [repeat split|]. split; [|lia]. exists (live X), (el F), M, Q. cbn [active d_list]. split; [rewrite live_mid, EY by assumption; reflexivity|reflexivity]. }
  cbn [rounds std_rounds active stack tags next ops d_stack d_list d_tags d_next d_ops].
  rewrite find_name_hit by (try assumption; now rewrite EY). rewrite nth_mid.
  replace (live X ++ M ++ el F :: Q) with ((live X ++ M) ++ El (e_node F) (e_name F) (e_token F) :: Q) by (rewrite <- app_assoc; reflexivity).
  rewrite last_named_hit by (try assumption; apply clean_app in C; tauto).
  replace ((live X ++ M) ++ El (e_node F) (e_name F) (e_token F) :: Q) with (live X ++ M ++ el F :: Q) by (rewrite <- app_assoc; reflexivity).
  assert (Nl : nodes (live (X ++ Some F :: Y)) = nodes (live X) ++ e_node F :: nodes M ++ nodes Q) by (rewrite live_mid, EY, nodes_app, nodes_cons, nodes_app by assumption; reflexivity).
  pose proof W as (NDs & NDl & _ & _). rewrite Nl in NDl. apply nodup_parts in NDl as (_ & _ & P1 & P2 & _). rewrite in_app_iff in P2.
  apply nodup_parts in NDs as (_ & NDa & S1 & S2 & _).
  assert (Elw : live (retire (List.length X) (X ++ Some F :: Y)) = without (e_node F) (live X ++ M ++ el F :: Q)) by (rewrite retire_live, EY, live_without by tauto; reflexivity).
  rewrite cut_at_mid by assumption.
  destruct (list_eq_dec Nat.eq_dec above []) as [->|Na].
  { rewrite last_opt_snoc, Nat.eqb_refl. cbn [existsb cut_first]. eexists. split; [reflexivity|]. split; [|exact Elw]. rewrite removelast_last. repeat split. }
  assert (Hl : match last_opt (lower ++ e_node F :: above) with Some x => x =? e_node F | None => false end = false).
  { destruct (exists_last Na) as (a' & z & ->). replace (lower ++ e_node F :: a' ++ [z]) with ((lower ++ e_node F :: a') ++ [z]) by (rewrite <- app_assoc; reflexivity). rewrite last_opt_snoc. apply Nat.eqb_neq. intros ->. apply S2, in_app_iff. right. now left. }
  rewrite Hl, index_mid by assumption. rewrite (in_scope_above lower (e_node F) above) by (try assumption; reflexivity). cbn [tags]. rewrite negb_involutive.
  destruct (existsb (fun x => boundary (tg x)) above) eqn:EB.
  { destruct B as [->|B]; [|discriminate]. eexists. split; [reflexivity|]. cbn [active d_list]. split; [repeat split|]. rewrite live_mid, EY by assumption. reflexivity. }
  assert (Es : skipn (S (List.length lower)) (lower ++ e_node F :: above) = above) by (clear; induction lower; cbn in *; auto).
  rewrite Es, furthest_cut. cbn [tags]. pose proof (cut_first_spec (fun x => special (tg x)) above) as K.
  destruct (cut_first (fun x => special (tg x)) above) as [[[between fb] top]|].
  2:{ eexists. split; [reflexivity|]. split; [|exact Elw]. cbn. assert (E : firstn (List.length lower) (lower ++ e_node F :: above) = lower) by (rewrite firstn_app, firstn_all, Nat.sub_diag; cbn; now rewrite app_nil_r). rewrite E. repeat split. }
  destruct K as (-> & Sp & Kb).
  assert (Ea : after (e_node F) Bookmark (live X ++ M ++ el F :: Q) = live X ++ M ++ el F :: Bookmark :: Q).
  { rewrite (app_assoc (live X) M). unfold el. rewrite after_mid; [now rewrite <- app_assoc|rewrite nodes_app, in_app_iff; tauto|tauto]. }
  rewrite Ea.
  destruct (inner_A u (e_node F) fb lower top X F M LF eq_refl (rev between) 0 Y Q tg nx o) as (bm' & lst' & kept' & act' & l' & tg' & nx' & o' & R1 & R2 & R3 & R4 & R5); rewrite ?rev_involutive; auto.
  rewrite rev_involutive in R1.
  assert (Ei : S (List.length lower) + List.length between = List.length (lower ++ e_node F :: between)) by (rewrite app_length; cbn [List.length]; lia).
  rewrite Ei, R1, R2. cbn [stack active tags next ops].
  destruct (exists_last L) as (low & anc & EL).
  assert (E1 : nth_error (lower ++ e_node F :: kept' ++ fb :: top) (List.length lower - 1) = Some anc).
  { rewrite EL, len_snoc, <- app_assoc. cbn [Nat.sub]. rewrite Nat.sub_0_r. apply nth_mid. }
  rewrite E1. rewrite index_mid by assumption. rewrite delete_mid.
  set (G := Entry nx' (e_name F) (e_token F) true).
  destruct (R3 G eq_refl) as (X' & Y' & M' & Q' & I1 & I2 & I3 & I4 & I5 & I6 & I7).
  assert (W2 : wf (lower ++ kept' ++ fb :: top) (nodes (live X') ++ nodes (live Y')) nx') by now apply wf_drop_stk in I7.
  assert (E2 : index_of fb (lower ++ kept' ++ fb :: top) = Some (List.length (lower ++ kept'))).
  { rewrite app_assoc. apply index_mid. destruct W2 as (W2 & _). rewrite app_assoc in W2. apply nodup_parts in W2. tauto. }
  rewrite E2.
  assert (E3 : insert (S (List.length (lower ++ kept'))) nx' (lower ++ kept' ++ fb :: top) = (lower ++ kept' ++ [fb]) ++ nx' :: top).
  { replace (lower ++ kept' ++ fb :: top) with ((lower ++ kept' ++ [fb]) ++ top) by (repeat (rewrite <- app_assoc; cbn [app]); reflexivity).
    replace (S (List.length (lower ++ kept'))) with (List.length (lower ++ kept' ++ [fb])) by (rewrite app_assoc, len_snoc; reflexivity). apply insert_mid. }
  rewrite E3. rewrite I1. cbn [G]. fold G.
  assert (E4 : lower ++ kept' ++ [fb; nx'] ++ top = (lower ++ kept' ++ [fb]) ++ nx' :: top) by (repeat (rewrite <- app_assoc; cbn [app]); reflexivity).
  rewrite E4. change (El nx' (e_name F) (e_token F)) with (el G). rewrite I3.
  assert (E5 : List.last lower 0 = anc) by (rewrite EL; apply last_last). rewrite E5.
  assert (T5 : forall x, In x top -> upd tg' nx' (e_name F, Html) x = tg x).
  { intros x Hx. assert (x < nx). { destruct W as (_ & _ & WC & _). apply WC. rewrite in_app_iff. cbn [In]. rewrite in_app_iff. cbn [In]. auto 10. }
    unfold upd. destruct (Nat.eqb_spec x nx'); [lia|]. apply R5. assumption. }
  destruct (IH X' G Y' M' Q' (lower ++ kept' ++ [fb]) top (upd tg' nx' (e_name F, Html)) (S nx') (o' ++ [Place lst' anc; New nx' (e_name F) (e_token F); MoveAll fb nx'; AaaModel.Append fb nx'])) as (s' & Q1 & Q2); auto.
  - rewrite live_mid, nodes_app, nodes_cons by reflexivity. change (e_node G) with nx'. apply wf_insert. replace ((lower ++ kept' ++ [fb]) ++ top) with (lower ++ kept' ++ fb :: top) by (repeat (rewrite <- app_assoc; cbn [app]); reflexivity). exact W2.
  - intros H. apply app_eq_nil in H as [H _]. tauto.
  - right. rewrite existsb_app in EB. cbn [existsb] in EB. apply orb_false_iff in EB as [_ EB]. apply orb_false_iff in EB as [_ EB].
    assert (Z : forall l, (forall x, In x l -> upd tg' nx' (e_name F, Html) x = tg x) -> existsb (fun x => boundary (upd tg' nx' (e_name F, Html) x)) l = existsb (fun x => boundary (tg x)) l).
    { induction l as [|y l IHl]; intros H; [reflexivity|]. cbn [existsb]. rewrite H by now left. f_equal. apply IHl. intros; apply H; now right. }
    now rewrite Z.
  - exists s'. split; [exact Q1|]. change (e_node G) with nx' in Q2.
    assert (Ef : List.length (filter (fun x => special (upd tg' nx' (e_name F, Html) x)) top) = List.length (filter (fun x => special (tg x)) top)) by (f_equal; apply filter_ext_on; intros x Hx; now rewrite T5).
    assert (Eg : List.length (filter (fun x => special (tg x)) (between ++ fb :: top)) = S (List.length (filter (fun x => special (tg x)) top))) by (rewrite filter_app; cbn [filter]; rewrite Kb, Sp; reflexivity).
    rewrite Eg. rewrite Ef in Q2.
    destruct (std_rounds special boundary n u _) as [d|d|d]; [exact Q2|exact Q2|]. destruct Q2 as (H1 & H2 & H3). split; [exact H1|]. split; [exact H2|lia].
Qed.

Lemma adoption_ok s x name token : proper s -> last_named u (rev (live (active s))) = Some (x, name, token) ->
  (forall y t, rev (stack s) = y :: t -> str_eqb (fst (tags s y)) u = true -> is_html (tags s y) = true -> In y (nodes (live (active s)))) ->
  exists s', adoption_agency special boundary u s = Some s' /\
  match std_adoption_agency special boundary u (standing s) with
  | AnyOther _ => False
  | Done d => agree s' d /\ live (active s') = d_list d
  | Exhausted d => agree s' d /\ one_later (live (active s')) (d_list d) /\ exists lower above, stack s = lower ++ x :: above /\ 8 <= List.length (filter (fun y => special (tags s y)) above)
  end.
Proof.
  intros [Ps Pl Pf Po Pr] LN H2. destruct (last_named_at u (active s) x name token LN) as (X & F & Y & EA & LF & EF & UF & CY). injection EF as Ex En Ek. rewrite <- En in UF.
  assert (Estd : std_adoption_agency special boundary u (standing s) = std_rounds special boundary 8 u (standing s)).
  { unfold std_adoption_agency, standing. cbn [d_stack d_tags d_list]. destruct (rev (stack s)) as [|y t] eqn:Er; [reflexivity|]. destruct (str_eqb (fst (tags s y)) u) eqn:E1; [|reflexivity]. destruct (is_html (tags s y)) eqn:E2; [|reflexivity]. cbn [andb].
    destruct (listed y (live (active s))) eqn:E3; [reflexivity|]. exfalso. specialize (H2 y t eq_refl E1 E2). apply nodes_in in H2 as (n' & k' & H2). apply in_split in H2 as (a & b & H2). rewrite H2 in E3.
    rewrite listed_mid in E3; [discriminate|]. rewrite H2, nodes_app in Pl. cbn [nodes flat_map app] in Pl. apply nodup_parts in Pl. tauto. }
  rewrite Estd. clear Estd H2.
  assert (Ecode : exists s', adoption_agency special boundary u s = rounds special boundary 8 u s \/ (Y = [] /\ exists t, stack s = t ++ [x] /\ adoption_agency special boundary u s = Some s' /\ s' = St t X (tags s) (next s) (ops s))).
  { unfold adoption_agency. (* the number of rounds is compared here, not by conversion *) match goal with |- context [rounds special boundary ?n u s] => tryif constr_eq n 8%nat then fail else fail 1 "rounds" | _ => idtac end.
    destruct (last_opt (active s)) as [[e|]|] eqn:E1; try (exists s; left; reflexivity). destruct (last_opt (stack s)) as [y|] eqn:E2; try (exists s; left; reflexivity).
    destruct (e_live e && str_eqb (e_name e) u && (y =? e_node e)) eqn:E3; [|exists s; left; reflexivity]. apply andb_true_iff in E3 as [E3 E4]. apply andb_true_iff in E3 as [E3 E5]. apply Nat.eqb_eq in E4.
    exists (St (removelast (stack s)) X (tags s) (next s) (ops s)). right.
    destruct Y as [|sl Y _] using rev_ind.
    - rewrite EA, last_opt_snoc in E1. injection E1 as <-. split; [reflexivity|]. destruct (list_eq_dec Nat.eq_dec (stack s) []) as [Z|Z]; [rewrite Z in E2; discriminate|]. destruct (exists_last Z) as (t & z & Et). rewrite Et, last_opt_snoc in E2. injection E2 as ->.
      exists t. rewrite Et, removelast_last. split; [congruence|]. split; [|reflexivity]. do 2 f_equal. rewrite EA, app_length. cbn [List.length]. replace (List.length X + 1 - 1) with (List.length X) by lia. apply retire_last.
    - exfalso. rewrite EA in E1. replace (X ++ Some F :: Y ++ [sl]) with ((X ++ Some F :: Y) ++ [sl]) in E1 by (rewrite <- app_assoc; reflexivity). rewrite last_opt_snoc in E1. injection E1 as ->.
      rewrite live_app, clean_app, (live_cons e) in CY by assumption. destruct CY as [_ CY]. apply clean_cons in CY. destruct CY as [CY _]. congruence. }
  assert (Nl : nodes (live (active s)) = nodes (live X) ++ x :: nodes (live Y)) by (rewrite EA, live_mid, nodes_app, nodes_cons, Ex by assumption; reflexivity).
  pose proof Pl as Pl'. rewrite Nl in Pl'. pose proof (nodup_parts _ _ _ Pl') as (_ & _ & P1 & P2 & P3).
  destruct Ecode as (s' & [Ecode|(-> & t & Et & Ec & ->)]).
  - rewrite Ecode. clear Ecode s'. destruct (in_dec Nat.eq_dec x (stack s)) as [Hin|Hout].
    + apply in_split in Hin as (lower & above & Est). unfold standing. destruct s as [stk act tg nx o]. cbn [stack active tags next ops] in *. subst stk act x.
      unfold same_order in Po. rewrite Nl in Po. fold (ordered (lower ++ e_node F :: above) (nodes (live X) ++ e_node F :: nodes (live Y))) in Po.
      destruct (ordered_split _ _ _ _ _ Ps Pl' Po) as (T1 & T2 & T3).
      destruct (rounds_ok 8 X F Y [] (live Y) lower above tg nx o) as (s' & Q1 & Q2); auto.
      * split; [exact Ps|]. split; [exact Pl|]. split; intros y Hy; apply Pf; auto.
      * intros y Hy. split; [|intros []]. intros K. apply (P3 y K). apply T2; [exact Hy|]. rewrite in_app_iff. auto.
      * intros ->. cbn [app] in Pr. apply Pr. rewrite Nl, in_app_iff. right. now left.
      * exists s'. split; [exact Q1|]. rewrite live_mid by assumption. cbn [app] in Q2. destruct (std_rounds special boundary 8 u _) as [d|d|d]; [exact Q2|exact Q2|]. destruct Q2 as (K1 & K2 & K3). split; [exact K1|]. split; [exact K2|]. exists lower, above. auto.
    + assert (Hlo : match last_opt (stack s) with Some z => z =? x | None => false end = false).
      { destruct (list_eq_dec Nat.eq_dec (stack s) []) as [Z|Z]; [now rewrite Z|]. destruct (exists_last Z) as (t & z & Et). rewrite Et, last_opt_snoc. apply Nat.eqb_neq. intros ->. apply Hout. rewrite Et, in_app_iff. right. now left. }
      eexists. split.
      * cbn [rounds]. rewrite EA. rewrite find_name_hit by assumption. rewrite nth_mid, Ex, Hlo, index_none by assumption. reflexivity.
      * cbn [std_rounds]. unfold standing. cbn [d_list d_stack d_tags d_next d_ops]. rewrite LN, cut_at_none by assumption. cbn [active d_list]. split; [repeat split|]. rewrite retire_live, EA, live_mid by assumption. unfold el. rewrite Ex. symmetry. apply without_mid; tauto.
  - exists (St t X (tags s) (next s) (ops s)). split; [exact Ec|]. cbn [std_rounds]. unfold standing. cbn [d_list d_stack d_tags d_next d_ops]. rewrite LN, Et, cut_at_mid by (rewrite Et in Ps; apply nodup_parts in Ps; tauto). cbn [existsb cut_first active d_list].
    split; [repeat split|]. rewrite EA, live_mid by assumption. change (live []) with (@nil item). unfold el. rewrite Ex. rewrite without_mid; [now rewrite app_nil_r|exact P1|intros []].
Qed.
End outer.

(* two pairs of predicates that agree on what occurs give the same *)
Section congruence.
Variables sp1 bd1 sp2 bd2 : tag -> bool.
Definition alike (t : tag) := sp1 t = sp2 t /\ bd1 t = bd2 t.
Definition alike_list (l : list item) := forall x n k, In (El x n k) l -> alike (n, Html).
Lemma alike_walk todo : forall counter fb lst kept l tg nx o lst' kept' l' tg' nx' o', (forall x, alike (tg x)) -> alike_list l -> walk_up todo counter fb lst kept l tg nx o = (lst', kept', l', tg', nx', o') -> (forall x, alike (tg' x)) /\ alike_list l'.
Proof.
  induction todo as [|x todo IH]; intros counter fb lst kept l tg nx o lst' kept' l' tg' nx' o' A B; cbn [walk_up]; [intros [= <- <- <- <- <- <-]; auto|].
  assert (B1 : alike_list (if 3 <? S counter then without x l else l)) by (destruct (3 <? S counter); [|exact B]; intros y n k H; apply filter_In in H as [H _]; exact (B y n k H)).
  revert B1. generalize (if 3 <? S counter then without x l else l). intros l1 B1. destruct (listed x l1) as [[name token]|] eqn:EL; [|now apply IH].
  assert (Bn : alike (name, Html)).
  { unfold listed in EL. destruct (List.find (is_el x) l1) as [i|] eqn:Ef; [|discriminate]. apply find_some in Ef as [Ef _]. destruct i as [|y n k|]; try discriminate. injection EL as <- <-. exact (B1 y n k Ef). }
  apply IH.
  - intros y. unfold upd. destruct (y =? nx); [exact Bn|apply A].
  - assert (B2 : alike_list (replaced x (El nx name token) l1)).
    { intros y n k H. unfold replaced in H. apply in_map_iff in H as (i & Ei & Hi). destruct (is_el x i); [injection Ei as <- <- <-; exact Bn|]. subst i. exact (B1 y n k Hi). }
    destruct (lst =? fb); [|exact B2]. intros y n k H. unfold after in H. apply in_flat_map in H as (i & Hi & H). apply filter_In in Hi as [Hi _]. destruct (is_el nx i); cbn [In] in H; [destruct H as [->|[H|[]]]; [|discriminate]|destruct H as [->|[]]]; exact (B2 y n k Hi).
Qed.
Lemma alike_rounds n u : forall s, (forall x, alike (d_tags s x)) -> alike_list (d_list s) -> std_rounds sp1 bd1 n u s = std_rounds sp2 bd2 n u s.
Proof.
  induction n as [|n IH]; intros s A B; [reflexivity|]. cbn [std_rounds].
  destruct (last_named u (rev (d_list s))) as [[[fe name] token]|] eqn:EN; [|reflexivity].
  assert (Bn : alike (name, Html)).
  { assert (K : forall l, last_named u l = Some (fe, name, token) -> In (El fe name token) l).
    { induction l as [|i l IHl]; [discriminate|]. destruct i as [|y m j|]; cbn [last_named]; [discriminate| |intros H; right; auto]. destruct (str_eqb m u); [intros [= -> -> ->]; now left|intros H; right; auto]. }
    apply K, in_rev in EN. exact (B fe name token EN). }
  destruct (cut_at fe (d_stack s)) as [[lower above]|]; [|reflexivity].
  assert (E1 : existsb (fun x => bd1 (d_tags s x)) above = existsb (fun x => bd2 (d_tags s x)) above) by (clear -A; induction above as [|y l IHl]; [reflexivity|]; cbn [existsb]; rewrite IHl; f_equal; apply A).
  assert (E2 : cut_first (fun x => sp1 (d_tags s x)) above = cut_first (fun x => sp2 (d_tags s x)) above).
  { clear -A. induction above as [|y l IHl]; [reflexivity|]. cbn [cut_first]. rewrite IHl. replace (sp1 (d_tags s y)) with (sp2 (d_tags s y)) by (symmetry; apply A). reflexivity. }
  rewrite E1, E2. destruct (existsb (fun x => bd2 (d_tags s x)) above); [reflexivity|]. destruct (cut_first (fun x => sp2 (d_tags s x)) above) as [[[between fb] top]|]; [|reflexivity].
  destruct (walk_up (rev between) 0 fb fb [] (after fe Bookmark (d_list s)) (d_tags s) (d_next s) (d_ops s)) as [[[[[lst kept] l] tg] nx] o] eqn:EW.
  assert (B1 : alike_list (after fe Bookmark (d_list s))).
  { intros y m k H. unfold after in H. apply in_flat_map in H as (i & Hi & H). destruct (is_el fe i); cbn [In] in H; [destruct H as [->|[H|[]]]; [|discriminate]|destruct H as [->|[]]]; exact (B y m k Hi). }
  destruct (alike_walk _ _ _ _ _ _ _ _ _ _ _ _ _ _ _ A B1 EW) as [A2 B2]. apply IH; cbn [d_tags d_list].
  - intros y. unfold upd. destruct (y =? nx); [exact Bn|apply A2].
  - intros y m k H. apply in_map_iff in H as (i & Ei & Hi). destruct (is_bookmark i); [injection Ei as <- <- <-; exact Bn|]. subst i. apply filter_In in Hi as [Hi _]. exact (B2 y m k Hi).
Qed.
End congruence.
