(* Proofs: what the matcher reads from a node, against SelSpec. *)
From Verif Require Import Str StrFacts SerializerModel SanModel SanFacts SanTreeProofs SanCleanFinal UrlListProofs DomModel DomSpec DomViewProofs DomProofs DomInvProofs DomFinal SelModel SelSpec.
From Coq Require Import Lia ZArith ZifyBool ZifyN ZifyNat.
Open Scope nat_scope.

Section S.
Variable h : heap.
Notation elem := (elem h). Notation is_element := (is_element h).
Lemma elem_spec x : elem x = true <-> is_element x.
Proof. unfold SelModel.elem, SelSpec.is_element, name_of, node_name. destruct (starts _ _); cbn; split; congruence. Qed.
Lemma elem_false x : elem x = false <-> ~ is_element x.
Proof. rewrite <- elem_spec. destruct (elem x); split; congruence. Qed.

(* attributes *)
Lemma attrs_lower_spec l : forall n v,
  assoc n (fold_left (fun d p => dict_set (lower (fst p)) (val_str (snd p)) d) l []) = Some v <->
  exists l1 l2 k w, l = (l1 ++ (k, w) :: l2)%list /\ lower k = n /\ (forall k' w', In (k', w') l2 -> lower k' <> n) /\ v = val_str w.
Proof.
  induction l as [|[k w] l IH] using rev_ind; intros n v.
  - cbn. split; [intros H; discriminate H|]. intros [l1 [l2 [k [w [E _]]]]]. destruct l1; discriminate E.
  - rewrite fold_left_app. cbn [fold_left fst snd]. rewrite assoc_dict_set. destruct (str_eqb_spec n (lower k)) as [->|Hn].
    + split.
      * intros H. exists l, [], k, w. split; [reflexivity|]. split; [reflexivity|]. split; [intros k' w' []|congruence].
      * intros [l1 [l2 [k' [w' [E [E1 [E2 ->]]]]]]]. destruct l2 as [|p l2] using rev_ind.
        -- apply app_inj_tail in E. destruct E as [_ E]. congruence.
        -- rewrite app_comm_cons, app_assoc in E. apply app_inj_tail in E. destruct E as [_ <-]. exfalso. apply (E2 k w); [apply in_or_app; right; left; reflexivity|reflexivity].
    + rewrite IH. split.
      * intros [l1 [l2 [k' [w' [-> [E1 [E2 E3]]]]]]]. exists l1, (l2 ++ [(k, w)])%list, k', w'. split; [rewrite <- app_assoc; reflexivity|]. split; [exact E1|]. split; [|exact E3].
        intros k2 w2 I. apply in_app_or in I. destruct I as [I | [I | []]]; [eauto|]. injection I as -> ->. congruence.
      * intros [l1 [l2 [k' [w' [E [E1 [E2 E3]]]]]]]. destruct l2 as [|p l2] using rev_ind.
        -- apply app_inj_tail in E. destruct E as [_ E]. exfalso. injection E as -> ->. congruence.
        -- rewrite app_comm_cons, app_assoc in E. apply app_inj_tail in E. destruct E as [-> _]. exists l1, l2, k', w'. split; [reflexivity|]. split; [exact E1|]. split; [|exact E3].
           intros k2 w2 I. apply (E2 k2 w2). apply in_or_app. left. exact I.
Qed.
Lemma attr_lookup x n v : assoc n (attrs_lower h x) = Some v <-> has_attr h x n v.
Proof.
  unfold attrs_lower, attrs_of, has_attr. rewrite attrs_lower_spec. destruct (attrs (cell_at h x)) as [d|] eqn:E.
  - split; [intros [l1 [l2 [k [w [H1 [H2 [H3 H4]]]]]]]; exists d, l1, l2, k, w; auto|].
    intros [d' [l1 [l2 [k [w [H0 [H1 [H2 [H3 H4]]]]]]]]]. exists l1, l2, k, w. assert (d' = d) as -> by congruence. auto.
  - split; [intros [l1 [l2 [k [w [H1 _]]]]]; destruct l1; discriminate H1|]. intros [d' [l1 [l2 [k [w [H0 _]]]]]]. discriminate H0.
Qed.

(* words *)
Lemma split_by_spec p s : forall acc w, forallb (fun c => negb (p c)) acc = true ->
  (In w (split_by_go p acc s) <->
   w <> [] /\ forallb (fun c => negb (p c)) w = true /\
   exists l r, (rev acc ++ s)%list = (l ++ w ++ r)%list /\ (l = [] \/ exists l' c, l = (l' ++ [c])%list /\ p c = true) /\ (r = [] \/ exists c r', r = c :: r' /\ p c = true)).
Proof.
  assert (FR : forall l : str, forallb (fun c => negb (p c)) (rev l) = forallb (fun c => negb (p c)) l).
  { intros l. destruct (forallb (fun c => negb (p c)) l) eqn:E; [apply forallb_forall; intros c I; apply in_rev in I; rewrite forallb_forall in E; auto|].
    destruct (forallb (fun c => negb (p c)) (rev l)) eqn:E'; [|reflexivity]. exfalso. rewrite forallb_forall in E'. assert (forallb (fun c => negb (p c)) l = true); [|congruence].
    apply forallb_forall. intros c I. apply E'. apply -> in_rev. exact I. }
  (* the words of an all-word string *)
  assert (ALL : forall a w l r, forallb (fun c => negb (p c)) a = true -> a = (l ++ w ++ r)%list -> w <> [] ->
    (l = [] \/ exists l' c, l = (l' ++ [c])%list /\ p c = true) -> (r = [] \/ exists c r', r = c :: r' /\ p c = true) -> w = a).
  { intros a w l r Ha E Hw [-> | [l' [c [-> Hc]]]] [-> | [d [r' [-> Hd]]]]; cbn [app] in E.
    - rewrite app_nil_r in E. auto.
    - subst a. rewrite forallb_app in Ha. cbn [forallb] in Ha. rewrite Hd in Ha. lia.
    - subst a. rewrite !forallb_app in Ha. cbn [forallb] in Ha. rewrite Hc in Ha. lia.
    - subst a. rewrite !forallb_app in Ha. cbn [forallb] in Ha. rewrite Hc in Ha. lia. }
  induction s as [|c s IH]; intros acc w Ha; cbn [split_by_go].
  - rewrite app_nil_r. destruct acc as [|a acc].
    + split; [intros []|]. intros [Hw [_ [l [r [E _]]]]]. cbn in E. destruct l; [|discriminate E]. destruct w; [contradiction|discriminate E].
    + split.
      * intros [<- | []]. split; [intros Q; apply (f_equal (@List.length N)) in Q; rewrite rev_length in Q; discriminate Q|]. split; [rewrite FR; exact Ha|].
        exists [], []. rewrite app_nil_r. auto.
      * intros [Hw [_ [l [r [E [Hl Hr]]]]]]. left. symmetry. apply (ALL _ w l r); [rewrite FR; exact Ha|exact E|exact Hw|exact Hl|exact Hr].
  - destruct (p c) eqn:Ec.
    + assert (K : In w (split_by_go p [] s) <-> w <> [] /\ forallb (fun c => negb (p c)) w = true /\
         exists l r, s = (l ++ w ++ r)%list /\ (l = [] \/ exists l' c, l = (l' ++ [c])%list /\ p c = true) /\ (r = [] \/ exists c r', r = c :: r' /\ p c = true)) by (apply (IH [] w eq_refl)).
      (* a word of  rev acc ++ c :: s  is  rev acc  itself or a word of s *)
      assert (D : forall a, forallb (fun c => negb (p c)) a = true -> (exists l r, (a ++ c :: s)%list = (l ++ w ++ r)%list /\ (l = [] \/ exists l' c, l = (l' ++ [c])%list /\ p c = true) /\ (r = [] \/ exists c r', r = c :: r' /\ p c = true)) ->
         w <> [] -> forallb (fun c => negb (p c)) w = true -> w = a \/ exists l r, s = (l ++ w ++ r)%list /\ (l = [] \/ exists l' c, l = (l' ++ [c])%list /\ p c = true) /\ (r = [] \/ exists c r', r = c :: r' /\ p c = true)).
      { intros a Aa [l [r [E [Hl Hr]]]] Hw Fw.
        destruct (Nat.le_gt_cases (List.length l) (List.length a)) as [L|L].
        - (* l within a: then l = [] *)
          assert (l = []) as ->.
          { destruct Hl as [-> | [l' [d [-> Hd]]]]; [reflexivity|]. exfalso. assert (In d a).
            { assert (N1 : nth_error (a ++ c :: s) (List.length l') = Some d) by (rewrite E, <- app_assoc, nth_error_app2, Nat.sub_diag by lia; reflexivity).
              rewrite nth_error_app1 in N1 by (rewrite app_length in L; cbn in L; lia). eapply nth_error_In; eauto. }
            rewrite forallb_forall in Aa. apply Aa in H. rewrite Hd in H. discriminate H. }
          cbn [app] in E. left.
          assert (X : exists t, a = (w ++ t)%list \/ w = (a ++ t)%list).
          { destruct (Nat.le_gt_cases (List.length w) (List.length a)) as [L2|L2].
            - exists (skipn (List.length w) a). left. rewrite <- (firstn_skipn (List.length w) a) at 1. f_equal.
              assert (Q : firstn (List.length w) (a ++ c :: s) = w) by (rewrite E, firstn_app, Nat.sub_diag, firstn_all; cbn; apply app_nil_r).
              rewrite firstn_app in Q. replace (List.length w - List.length a) with 0 in Q by lia. cbn in Q. rewrite app_nil_r in Q. exact Q.
            - exists (skipn (List.length a) w). right. rewrite <- (firstn_skipn (List.length a) w) at 1. f_equal.
              assert (Q : firstn (List.length a) (w ++ r) = a) by (rewrite <- E, firstn_app, Nat.sub_diag, firstn_all; cbn; apply app_nil_r).
              rewrite firstn_app in Q. replace (List.length a - List.length w) with 0 in Q by lia. cbn in Q. rewrite app_nil_r in Q. exact Q. }
          destruct X as [t [-> | ->]].
          + destruct t as [|d t]; [rewrite app_nil_r; reflexivity|]. exfalso. rewrite <- app_assoc in E. apply app_inv_head in E. cbn in E.
            destruct Hr as [-> | [e [r' [-> He]]]]; [discriminate E|]. injection E as -> _. rewrite forallb_app in Aa. cbn [forallb] in Aa. rewrite He in Aa. lia.
          + destruct t as [|d t]; [rewrite app_nil_r; reflexivity|]. exfalso. rewrite <- app_assoc in E. apply app_inv_head in E. cbn in E. injection E as -> _.
            rewrite forallb_app in Fw. cbn [forallb] in Fw. rewrite Ec in Fw. lia.
        - right. assert (X : exists l2, l = (a ++ c :: l2)%list).
          { assert (Q : firstn (List.length a) l = a).
            { assert (Q : firstn (List.length a) (l ++ w ++ r) = a) by (rewrite <- E, firstn_app, Nat.sub_diag, firstn_all; cbn; apply app_nil_r).
              rewrite firstn_app in Q. replace (List.length a - List.length l) with 0 in Q by lia. cbn in Q. rewrite app_nil_r in Q. exact Q. }
            rewrite <- (firstn_skipn (List.length a) l) in E |- *. rewrite Q in E |- *. rewrite <- app_assoc in E. apply app_inv_head in E.
            destruct (skipn (List.length a) l) as [|d t] eqn:Es; [apply (f_equal (@List.length N)) in Es; rewrite skipn_length in Es; cbn in Es; lia|].
            cbn in E. injection E as <- _. exists t. reflexivity. }
          destruct X as [l2 ->]. rewrite <- app_assoc in E. apply app_inv_head in E. cbn in E. injection E as E. exists l2, r. split; [exact E|]. split; [|exact Hr].
          destruct l2 as [|d l2] using rev_ind; [left; reflexivity|right]. exists l2, d. split; [reflexivity|]. destruct Hl as [Hl | [l' [e [Hl He]]]]; [destruct a; discriminate Hl|].
          assert (d = e); [|congruence]. change (a ++ c :: l2 ++ [d])%list with (a ++ (c :: l2) ++ [d])%list in Hl. rewrite app_assoc in Hl. apply app_inj_tail in Hl. tauto. }
      assert (U : (exists l r, s = (l ++ w ++ r)%list /\ (l = [] \/ exists l' c, l = (l' ++ [c])%list /\ p c = true) /\ (r = [] \/ exists c r', r = c :: r' /\ p c = true)) -> forall a,
         exists l r, (a ++ c :: s)%list = (l ++ w ++ r)%list /\ (l = [] \/ exists l' c, l = (l' ++ [c])%list /\ p c = true) /\ (r = [] \/ exists c r', r = c :: r' /\ p c = true)).
      { intros [l [r [-> [Hl Hr]]]] a. exists (a ++ c :: l)%list, r. split; [rewrite <- app_assoc; reflexivity|]. split; [|exact Hr]. right.
        destruct Hl as [-> | [l' [d [-> Hd]]]]; [exists a, c; auto|]. exists (a ++ c :: l')%list, d. split; [rewrite <- app_assoc; reflexivity|exact Hd]. }
      destruct acc as [|a acc].
      * cbn [rev]. rewrite K. cbn [app]. split; intros [H1 [H2 H3]]; (split; [exact H1|split; [exact H2|]]); [exact (U H3 [])|].
        destruct (D [] eq_refl H3 H1 H2) as [-> | H]; [contradiction|exact H].
      * cbn [In]. rewrite K. split.
        -- intros [<- | [H1 [H2 H3]]]; [|split; [exact H1|split; [exact H2|apply U; exact H3]]].
           split; [intros Q; apply (f_equal (@List.length N)) in Q; rewrite rev_length in Q; discriminate Q|]. split; [rewrite FR; exact Ha|].
           exists [], (c :: s). split; [reflexivity|]. split; [left; reflexivity|]. right. exists c, s. auto.
        -- intros [H1 [H2 H3]]. destruct (D (rev (a :: acc)) ltac:(rewrite FR; exact Ha) H3 H1 H2) as [-> | H]; [left; reflexivity|right; auto].
    + rewrite (IH (c :: acc) w) by (cbn [forallb]; rewrite Ec; exact Ha). cbn [rev]. rewrite <- app_assoc. reflexivity.
Qed.
Lemma word_spec w s : in_strs w (split_ws s) = true <-> word_of w s.
Proof. rewrite in_strs_In. unfold split_ws, word_of. rewrite (split_by_spec is_space s [] w eq_refl). reflexivity. Qed.
Lemma ends_spec w v : ends w v = true <-> exists l, v = (l ++ w)%list.
Proof.
  unfold ends. rewrite starts_spec. split; intros [t E].
  - exists (rev t). rewrite <- (rev_involutive v), E, rev_app_distr, rev_involutive. reflexivity.
  - exists (rev t). rewrite E, rev_app_distr. reflexivity.
Qed.
Lemma str_eqb_iff a b : str_eqb a b = true <-> a = b.
Proof. destruct (str_eqb_spec a b); split; congruence. Qed.
Lemma attr_test_spec x n o : attr_test h x n o = true <-> exists v, has_attr h x n v /\ attr_sat v o.
Proof.
  unfold attr_test. assert (F : forall v w, has_attr h x n v -> has_attr h x n w -> v = w) by (intros v w; rewrite <- !attr_lookup; congruence).
  destruct (assoc n (attrs_lower h x)) as [v|] eqn:E.
  2:{ split; [intros H; discriminate H|]. intros [v [H _]]. apply attr_lookup in H. congruence. }
  apply attr_lookup in E.
  assert (K : forall P : str -> Prop, P v <-> exists v, has_attr h x n v /\ P v).
  { intros P. split; [intros H; exists v; auto|]. intros [w [H1 H2]]. rewrite (F v w E H1). exact H2. }
  destruct o as [[o w]|]; [|split; [intros _; exists v; split; [exact E|exact I]|reflexivity]].
  rewrite <- (K (fun v => attr_sat v (Some (o, w)))). destruct o; cbn [attr_sat].
  - apply str_eqb_iff.
  - destruct v as [|c v]; [|apply word_spec]. split; [intros H; discriminate H|]. intros [Hw [_ [l [r [Q _]]]]]. destruct l; [|discriminate Q]. destruct w; [contradiction|discriminate Q].
  - rewrite orb_true_iff, str_eqb_iff, starts_spec. split; (intros [H | [t H]]; [left; exact H|right; exists t; rewrite H, <- ?app_assoc; reflexivity]).
  - destruct w as [|c w]; [split; [intros H; discriminate H|intros [H _]; contradiction]|]. rewrite starts_spec. split; [intros H; split; [discriminate|exact H]|tauto].
  - destruct w as [|c w]; [split; [intros H; discriminate H|intros [H _]; contradiction]|]. rewrite ends_spec. split; [intros H; split; [discriminate|exact H]|tauto].
  - destruct w as [|c w]; [split; [intros H; discriminate H|intros [H _]; contradiction]|]. rewrite contains_spec. split; [intros H; split; [discriminate|exact H]|tauto].
Qed.
Lemma class_spec x n : in_strs n (class_tokens h x) = true <-> exists v, has_attr h x (u "class") v /\ word_of n v.
Proof.
  unfold class_tokens. rewrite word_spec. destruct (assoc (u "class") (attrs_lower h x)) as [v|] eqn:E.
  - apply attr_lookup in E. split; [intros H; exists v; auto|]. intros [w [H1 H2]]. assert (v = w); [|congruence]. apply attr_lookup in E. apply attr_lookup in H1. congruence.
  - split; [intros [Hw [_ [l [r [Q _]]]]]; destruct l; [destruct n; [contradiction|discriminate Q]|discriminate Q]|]. intros [w [H1 _]]. apply attr_lookup in H1. congruence.
Qed.
End S.
