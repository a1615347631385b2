(* Proofs: whole selectors on the trees a program can build. *)
From Verif Require Import Str StrFacts SerializerModel SanModel SanFacts SanTreeProofs DomModel DomSpec DomViewProofs DomProofs DomInvProofs DomFinal SelModel SelSpec SelNodeProofs SelSibProofs SelMatchProofs SelChainProofs SelTopProofs.
From Coq Require Import Lia.
Open Scope nat_scope.

Lemma NoDup_app_remove_l {A} (a b : list A) : NoDup (a ++ b) -> NoDup b.
Proof. induction a as [|x a IH]; intros H; [exact H|]. cbn [app] in H. apply NoDup_cons_iff in H. apply IH. apply H. Qed.
(* ---- what holds of every heap that calls can build ---- *)
Lemma reached_ff h : reached_full h -> full_forest h.
Proof. intros R. exact (wf_full_forest h (i_wf _ _ (reached_full_inv h R))). Qed.
Lemma reached_fn h : reached_full h -> forall x p, parent h x = Some p -> is_fragment h x -> ~ is_element h x.
Proof.
  intros R x p P K E. pose proof (reached_full_inv h R) as I. destruct (Nat.lt_ge_cases x (hnext h)) as [L | G].
  - destruct (i_ok _ _ I x L) as [_ O]. unfold is_fragment in K. rewrite K in O. destruct O as [O _]. unfold is_element, node_name in E. rewrite O in E. vm_compute in E. discriminate E.
  - destruct (w_out _ _ _ _ _ _ (i_wf _ _ I) x G) as [Q _]. unfold vP in Q. unfold parent in P. congruence.
Qed.
Lemma reached_db h : reached_full h -> forall x, exists n, depth (fun x => parent h x) x n /\ n <= hnext h.
Proof.
  intros R x. pose proof (i_wf _ _ (reached_full_inv h R)) as W. destruct (rooted_depth _ _ (w_root _ _ _ _ _ _ W x)) as [n D]. exists n. split; [exact D|].
  apply (depth_bound (vP h) x n (hnext h)); [| |exact D].
  - intros z Hz. apply (w_out _ _ _ _ _ _ W z Hz).
  - intros z p Hz. apply (out_range _ _ _ _ _ _ W) in Hz. apply Hz.
Qed.

(* ---- numbers of compounds ---- *)
Definition part_of (s : selector) (i : nat) : compound :=
  match List.find (fun c => cid c =? i) (parts s) with Some c => c | None => Compound i [] end.
Lemma part_of_cid s c : labelled s -> In c (parts s) -> part_of s (cid c) = c.
Proof.
  unfold labelled, part_of. induction (parts s) as [|d l IH]; intros ND Hc; [destruct Hc|]; destruct Hc as [-> | Hc]; cbn [List.find map] in *.
  - rewrite Nat.eqb_refl. reflexivity.
  - apply NoDup_cons_iff in ND. destruct ND as [N1 N2]. assert (cid d =? cid c = false) as ->.
    { apply Nat.eqb_neq. intros Q. apply N1. rewrite Q. apply in_map. exact Hc. }
    exact (IH N2 Hc).
Qed.
Lemma in_parts (s : selector) c p : In c s -> In p c -> In (snd p) (parts s).
Proof. intros H1 H2. unfold parts. apply in_concat. exists (map snd c). split; [apply in_map; exact H1|apply in_map; exact H2]. Qed.
Lemma known_parts s : parsed_ok s -> only_simple_nots s -> forall c p, In c s -> In p c -> known (part_of s) (snd p).
Proof.
  intros [L P] N c p Hc Hp. pose proof (in_parts _ _ _ Hc Hp) as I. split; [apply part_of_cid; assumption|]. split; [apply (P c Hc); exact Hp|apply N; exact I].
Qed.
Lemma nodup_split {A B} (f : A -> B) (l : list (list A)) c : In c l -> NoDup (map f (List.concat l)) -> NoDup (map f c).
Proof.
  intros H ND. apply in_split in H. destruct H as [l1 [l2 ->]]. rewrite concat_app in ND. cbn [List.concat] in ND. rewrite !map_app in ND.
  apply NoDup_app_remove_l in ND. apply NoDup_app_remove_r in ND. exact ND.
Qed.

Section S.
Variable h : heap.
Hypothesis RF : reached_full h.
Variable over : nat -> bool.
Variable level : nat.
Variable deeper : nat -> selector -> M bool.
Hypothesis deeper_keeps : forall x s, arg_ok s -> keeps (deeper x s).
Hypothesis deeper_exact : forall x s, arg_ok s -> is_element h x -> exact (deeper x s) (sat h s x).
Variable ci : nat -> compound.
Let FF := reached_ff h RF.
Let FN := reached_fn h RF.
Let DB := reached_db h RF.
Notation caches_sound := (caches_sound h ci).
Notation prev_exact := (prev_exact h ci).

Lemma any_sound s : forall x st b st', (forall c, In c s -> well_formed c = true /\ (forall p, In p c -> known ci (snd p)) /\ forall p, In p (removelast c) -> anchored (snd p) = true) ->
  is_element h x -> caches_sound st -> matches_any h over level deeper x s st = MOk b st' -> caches_sound st' /\ (b = true -> sat h s x).
Proof.
  induction s as [|c s IH]; intros x st b st' H Ex CS E; cbn [matches_any] in E; [injection E as <- <-; split; [exact CS|intros Q; discriminate Q]|].
  unfold bind in E. destruct (tick over st) as [[] s0|e] eqn:T; [|discriminate E]. apply keeps_tick in T.
  assert (CS0 : caches_sound s0) by (destruct CS as [C1 C2]; split; [intros i d n w; rewrite (caches_anc _ _ T); apply C1|intros p i d w; rewrite (caches_prev _ _ T); apply C2]).
  destruct (matches_complex h over level deeper x c s0) as [b1 s1|e] eqn:M1; [|discriminate E]. destruct (H c (or_introl eq_refl)) as [W [K A]].
  destruct (complex_sound h FF FN DB over level deeper deeper_keeps deeper_exact ci c x s0 b1 s1 W K A Ex CS0 M1) as [CS1 B1].
  destruct b1.
  - injection E as <- <-. split; [exact CS1|]. intros _. exists c. split; [left; reflexivity|auto].
  - destruct (IH x s1 b st' (fun d Hd => H d (or_intror Hd)) Ex CS1 E) as [C B]. split; [exact C|]. intros Hb. destruct (B Hb) as [d [D1 D2]]. exists d. split; [right; exact D1|exact D2].
Qed.
Definition sel_exact (s : selector) (st : qstate) : Prop := forall c, In c s -> all_exact h level c st.
Lemma any_exact s : forall x st b st', (forall c, In c s -> well_formed c = true /\ (forall p, In p c -> known ci (snd p)) /\ (forall p, In p (removelast c) -> anchored (snd p) = true) /\
    nearest_suffices (combs c) = true) -> labelled s ->
  is_element h x -> sel_exact s st -> prev_exact st -> matches_any h over level deeper x s st = MOk b st' ->
  (b = true <-> sat h s x) /\ prev_exact st' /\ (forall i d n, ~ In i (map cid (parts s)) -> lookup (i, d, n) (anc_cache st') = lookup (i, d, n) (anc_cache st)) /\ (descendants_apart h s -> sel_exact s st').
Proof.
  induction s as [|c s IH]; intros x st b st' H L Ex AE PE E; cbn [matches_any] in E.
  { injection E as <- <-. split; [split; [intros Q; discriminate Q|intros [c [[] _]]]|]. split; [exact PE|]. split; [reflexivity|]. intros _ c []. }
  unfold bind in E. destruct (tick over st) as [[] s0|e] eqn:T; [|discriminate E]. apply keeps_tick in T.
  assert (PE0 : prev_exact s0) by (intros p i d w; rewrite (caches_prev _ _ T); apply PE).
  assert (AE0 : sel_exact (c :: s) s0) by (intros d Hd p Hp; apply (exact_lookup h level _ st); [intros n; rewrite (caches_anc _ _ T); reflexivity|apply (AE d Hd p Hp)]).
  destruct (matches_complex h over level deeper x c s0) as [b1 s1|e] eqn:M1; [|discriminate E]. destruct (H c (or_introl eq_refl)) as [W [K [A G]]].
  assert (CI : map cid (parts (c :: s)) = (cids c ++ map cid (parts s))%list) by (unfold parts, cids; cbn [map List.concat]; rewrite map_app, map_map; reflexivity).
  assert (NDc : NoDup (cids c)) by (unfold labelled in L; rewrite CI in L; apply NoDup_app_remove_r in L; exact L).
  assert (Ls : labelled s) by (unfold labelled in *; rewrite CI in L; apply NoDup_app_remove_l in L; exact L).
  assert (DJ : forall i, In i (cids c) -> ~ In i (map cid (parts s))).
  { intros i H1 H2. unfold labelled in L. rewrite CI in L. clear - L H1 H2. induction (cids c) as [|a l IHl]; [destruct H1|]. cbn [app] in L. apply NoDup_cons_iff in L. destruct L as [L1 L2].
    destruct H1 as [-> | H1]; [apply L1; apply in_or_app; right; exact H2|exact (IHl L2 H1)]. }
  destruct (complex_exact h FF FN DB over level deeper deeper_keeps deeper_exact ci c x s0 b1 s1 W K A NDc G Ex (AE0 c (or_introl eq_refl)) PE0 M1) as [B1 [B2 [B3 B4]]].
  assert (Es1 : sel_exact s s1).
  { intros d Hd p Hp. apply (exact_lookup h level _ s0); [|apply (AE0 d (or_intror Hd) p Hp)]. intros n. apply B3. intros Q. apply (DJ _ Q). apply in_map. exact (in_parts _ _ _ Hd Hp). }
  assert (LK0 : forall i d n, lookup (i, d, n) (anc_cache s0) = lookup (i, d, n) (anc_cache st)) by (intros; rewrite (caches_anc _ _ T); reflexivity).
  destruct b1.
  - injection E as <- <-. split; [split; [intros _; exists c; split; [left; reflexivity|apply B1; reflexivity]|reflexivity]|]. split; [exact B2|]. split.
    + intros i d n Hi. rewrite B3, LK0; [reflexivity|]. intros Q. apply Hi. rewrite CI. apply in_or_app. left. exact Q.
    + intros Ap d [<- | Hd]; [apply B4; exact (Ap c (or_introl eq_refl))|exact (Es1 d Hd)].
  - destruct (IH x s1 b st' (fun d Hd => H d (or_intror Hd)) Ls Ex Es1 B2 E) as [D1 [D2 [D3 D4]]]. split; [|split; [exact D2|split]].
    + rewrite D1. split; [intros [d [Q1 Q2]]; exists d; split; [right; exact Q1|exact Q2]|]. intros [d [[<- | Q1] Q2]]; [apply B1 in Q2; discriminate Q2|exists d; auto].
    + intros i d n Hi. rewrite CI in Hi. rewrite D3, B3, LK0; [reflexivity| |]; intros Q; apply Hi; apply in_or_app; auto.
    + intros Ap d [<- | Hd]; [|apply D4; [intros e He; apply Ap; right; exact He|exact Hd]].
      intros p Hp. apply (exact_lookup h level _ s1); [|apply B4; [exact (Ap c (or_introl eq_refl))|exact Hp]]. intros n. apply D3. apply DJ. unfold cids. apply in_map_iff. exists p. auto.
Qed.
End S.

(* ---- _matches at the top level ---- *)
Lemma top_sound h over r s x st b st' : reached_full h -> parsed_ok s -> only_simple_nots s -> left_parts_anchored s -> is_element h x ->
  caches_sound h (part_of s) st -> matches_at h over (S r) x s st = MOk b st' -> caches_sound h (part_of s) st' /\ (b = true -> sat h s x).
Proof.
  intros R P N A Ex CS E. cbn [matches_at] in E. unfold bind in E. destruct (tick over st) as [[] s0|e] eqn:T; [|discriminate E]. apply keeps_tick in T.
  assert (CS0 : caches_sound h (part_of s) s0) by (destruct CS as [C1 C2]; split; [intros i d n w; rewrite (caches_anc _ _ T); apply C1|intros p i d w; rewrite (caches_prev _ _ T); apply C2]).
  pose proof (args_keep h over r) as DK. pose proof (args_exact h (reached_ff h R) (reached_fn h R) (reached_db h R) over r) as DE.
  assert (H : forall c, In c s -> well_formed c = true /\ (forall p, In p c -> known (part_of s) (snd p)) /\ forall p, In p (removelast c) -> anchored (snd p) = true).
  { intros c Hc. split; [apply P; exact Hc|]. split; [intros p Hp; eapply known_parts; eauto|intros p Hp; exact (A c Hc p Hp)]. }
  assert (Q : forall st b st', caches_sound h (part_of s) st -> matches_any h over (S r) (matches_at h over r) x s st = MOk b st' -> caches_sound h (part_of s) st' /\ (b = true -> sat h s x)).
  { intros. eapply any_sound; eauto. }
  destruct s as [|c [|d t]]; [eapply Q; eauto| |eapply Q; eauto]. clear Q. destruct (H c (or_introl eq_refl)) as [H1 [H2 H3]].
  destruct (complex_sound h (reached_ff h R) (reached_fn h R) (reached_db h R) over (S r) _ DK DE _ c x s0 b st' H1 H2 H3 Ex CS0 E) as [B1 B2]. split; [exact B1|].
  intros Hb. exists c. split; [left; reflexivity|auto].
Qed.
Lemma top_exact h over r s x st b st' : reached_full h -> parsed_ok s -> only_simple_nots s -> left_parts_anchored s -> nearest_ok s -> is_element h x ->
  sel_exact h (S r) s st -> prev_exact h (part_of s) st -> matches_at h over (S r) x s st = MOk b st' ->
  (b = true <-> sat h s x) /\ prev_exact h (part_of s) st' /\ (descendants_apart h s -> sel_exact h (S r) s st').
Proof.
  intros R P N A NO Ex AE PE E. cbn [matches_at] in E. unfold bind in E. destruct (tick over st) as [[] s0|e] eqn:T; [|discriminate E]. apply keeps_tick in T.
  assert (PE0 : prev_exact h (part_of s) s0) by (intros p i d w; rewrite (caches_prev _ _ T); apply PE).
  assert (AE0 : sel_exact h (S r) s s0) by (intros d Hd p Hp; apply (exact_lookup h (S r) _ st); [intros n; rewrite (caches_anc _ _ T); reflexivity|apply (AE d Hd p Hp)]).
  pose proof (args_keep h over r) as DK. pose proof (args_exact h (reached_ff h R) (reached_fn h R) (reached_db h R) over r) as DE.
  assert (H : forall c, In c s -> well_formed c = true /\ (forall p, In p c -> known (part_of s) (snd p)) /\ (forall p, In p (removelast c) -> anchored (snd p) = true) /\ nearest_suffices (combs c) = true).
  { intros c Hc. split; [apply P; exact Hc|]. split; [intros p Hp; eapply known_parts; eauto|]. split; [intros p Hp; exact (A c Hc p Hp)|apply NO; exact Hc]. }
  assert (Q : forall st b st', sel_exact h (S r) s st -> prev_exact h (part_of s) st -> matches_any h over (S r) (matches_at h over r) x s st = MOk b st' ->
     (b = true <-> sat h s x) /\ prev_exact h (part_of s) st' /\ (descendants_apart h s -> sel_exact h (S r) s st')).
  { intros st1 b1 st1' Q1 Q2 Q3. destruct (any_exact h R over (S r) _ DK DE (part_of s) s x st1 b1 st1' H (proj1 P) Ex Q1 Q2 Q3) as [B1 [B2 [_ B4]]]. auto. }
  destruct s as [|c [|d t]]; [eapply Q; eauto| |eapply Q; eauto]. clear Q. destruct (H c (or_introl eq_refl)) as [H1 [H2 [H3 H4]]].
  assert (NDc : NoDup (cids c)). { destruct P as [L _]. unfold labelled, parts in L. cbn [map List.concat] in L. rewrite app_nil_r, map_map in L. exact L. }
  destruct (complex_exact h (reached_ff h R) (reached_fn h R) (reached_db h R) over (S r) _ DK DE _ c x s0 b st' H1 H2 H3 NDc H4 Ex (AE0 c (or_introl eq_refl)) PE0 E) as [B1 [B2 [_ B4]]].
  split; [|split; [exact B2|intros Ap d [<- | []]; apply B4; exact (Ap c (or_introl eq_refl))]].
  rewrite B1. unfold sat. split; [intros Q; exists c; split; [left; reflexivity|exact Q]|]. intros [d [[<- | []] Q]]. exact Q.
Qed.
Lemma fresh_sound h ci : caches_sound h ci fresh_state.
Proof. split; [intros i d n r Q; discriminate Q|intros p i d w Q; discriminate Q]. Qed.
Lemma fresh_exact h level s : sel_exact h level s fresh_state.
Proof. intros c Hc p Hp n r Q. discriminate Q. Qed.
