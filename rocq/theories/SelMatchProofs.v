(* Proofs: matching a compound selector is exact; caches. *)
From Verif Require Import Str StrFacts SerializerModel SanModel SanFacts SanIdemProofs DomModel DomSpec DomViewProofs DomProofs DomInvProofs DomFinal SelModel SelSpec SelNodeProofs SelSibProofs.
From Coq Require Import Lia ZArith.
Open Scope nat_scope.

Definition caches (s : qstate) := (anc_cache s, prev_cache s).
Definition keeps {A} (m : M A) : Prop := forall st b st', m st = MOk b st' -> caches st' = caches st.
Lemma keeps_ret {A} (a : A) : keeps (ret_ a). Proof. intros st b st' H. injection H as _ <-. reflexivity. Qed.
Lemma keeps_raise {A} e : keeps (@raise A e). Proof. intros st b st' H. discriminate H. Qed.
Lemma keeps_tick over : keeps (tick over).
Proof. intros st b st' H. unfold tick in H. destruct (over (clock st)); [discriminate H|]. injection H as _ <-. reflexivity. Qed.
Lemma keeps_bind {A B} (m : M A) (f : A -> M B) : keeps m -> (forall a, keeps (f a)) -> keeps (bind m f).
Proof.
  intros Hm Hf st b st' H. unfold bind in H. destruct (m st) as [a s|e] eqn:E; [|discriminate H]. rewrite (Hf a _ _ _ H). exact (Hm _ _ _ E).
Qed.
Definition exact (m : M bool) (P : Prop) : Prop := forall st b st', m st = MOk b st' -> (b = true <-> P).
Lemma exact_ret b (P : Prop) : (b = true <-> P) -> exact (ret_ b) P.
Proof. intros H st b' st' E. injection E as <- _. exact H. Qed.
Lemma exact_raise e P : exact (raise e) P. Proof. intros st b st' H. discriminate H. Qed.
Lemma exact_then {A} (m : M A) k P : exact k P -> exact (m ;;; k) P.
Proof. intros H st b st' E. unfold bind in E. destruct (m st) as [a s|e]; [|discriminate E]. exact (H _ _ _ E). Qed.
Lemma exact_and m k P Q : exact m P -> exact k Q -> exact (b <- m ;; if b then k else ret_ false) (P /\ Q).
Proof.
  intros Hm Hk st b st' E. unfold bind in E. destruct (m st) as [a s|e] eqn:Em; [|discriminate E]. pose proof (Hm _ _ _ Em) as X. destruct a.
  - pose proof (Hk _ _ _ E) as Y. tauto.
  - injection E as <- _. split; [intros Q'; discriminate Q'|]. intros [Hp _]. apply X in Hp. discriminate Hp.
Qed.
Lemma exact_or m k P Q : exact m P -> exact k Q -> exact (b <- m ;; if b then ret_ true else k) (P \/ Q).
Proof.
  intros Hm Hk st b st' E. unfold bind in E. destruct (m st) as [a s|e] eqn:Em; [|discriminate E]. pose proof (Hm _ _ _ Em) as X. destruct a.
  - injection E as <- _. tauto.
  - pose proof (Hk _ _ _ E) as Y. split; [tauto|]. intros [H | H]; [apply X in H; discriminate H|tauto].
Qed.
Lemma exact_not m P : exact m P -> exact (b <- m ;; ret_ (negb b)) (~ P).
Proof.
  intros Hm st b st' E. unfold bind in E. destruct (m st) as [a s|e] eqn:Em; [|discriminate E]. pose proof (Hm _ _ _ Em) as X. injection E as <- _. destruct a; cbn; split; try tauto; [intros Q; discriminate Q|].
  intros _ Q. apply X in Q. discriminate Q.
Qed.
Lemma exact_iff m P Q : (P <-> Q) -> exact m P -> exact m Q.
Proof. intros H E st b st' R. rewrite <- H. exact (E _ _ _ R). Qed.
Lemma exact_if (m : M bool) (b : bool) P Q : exact m P -> (Q <-> (b = true /\ P)) -> exact (if b then m else ret_ false) Q.
Proof. intros H HQ. destruct b; [eapply exact_iff; [|exact H]; tauto|apply exact_ret]. rewrite HQ. split; [intros X; discriminate X|tauto]. Qed.

Section S.
Variable h : heap.
Hypothesis FF : full_forest h.
Hypothesis FN : forall x p, parent h x = Some p -> is_fragment h x -> ~ is_element h x.
Hypothesis DB : forall x, exists n, depth (fun x => parent h x) x n /\ n <= hnext h.
Variable over : nat -> bool.
Let F := ff_forest h FF.

Lemma keeps_pseudo x n a : keeps (matches_pseudo h over x n a).
Proof.
  unfold matches_pseudo. repeat match goal with
  | |- keeps (if ?b then _ else _) => destruct b
  | |- keeps (bind _ _) => apply keeps_bind; [apply keeps_tick|intros _]
  | |- keeps (ret_ _) => apply keeps_ret
  | |- keeps (raise _) => apply keeps_raise
  | |- keeps (match ?o with None => _ | Some _ => _ end) => destruct o
  | |- keeps (match ?o with [] => _ | _ :: _ => _ end) => destruct o
  end.
Qed.

Ltac other H := match type of H with
  | (?a = _ /\ _) \/ _ => destruct H as [[?Q _] | H]; [exfalso; vm_compute in Q; discriminate Q|]
  end.
Ltac pick H := (* keep the disjunct whose equation is not absurd *)
  repeat (match type of H with
  | (_ = _ /\ _) \/ _ => destruct H as [H | H]; [try (exfalso; destruct H as [H _]; vm_compute in H; discriminate H)|]
  end); try (exfalso; destruct H as [H _]; vm_compute in H; discriminate H).

Lemma pseudo_exact x n a : is_element h x -> exact (matches_pseudo h over x n a) (pseudo_sat h x n a).
Proof.
  intros E. unfold matches_pseudo.
  destruct (str_eqb_spec n (u "first-child")) as [->|N1].
  { apply exact_then, exact_ret. rewrite (first_child_spec h F FN x E). unfold pseudo_sat. split; [tauto|]. intros H. pick H. apply H. }
  destruct (str_eqb_spec n (u "last-child")) as [->|N2].
  { apply exact_then, exact_ret. rewrite (last_child_spec h F FN x E). unfold pseudo_sat. split; [tauto|]. intros H. pick H. apply H. }
  destruct (str_eqb_spec n (u "nth-child")) as [->|N3].
  { apply exact_then, exact_ret. unfold element_index. rewrite (nth_spec h F FN any (fun _ => true) x a E any_true I). unfold pseudo_sat. split; [tauto|]. intros H. pick H. apply H. }
  destruct (str_eqb_spec n (u "only-child")) as [->|N4].
  { apply exact_then, exact_ret. rewrite andb_true_iff, (first_child_spec h F FN x E), (last_child_spec h F FN x E). unfold pseudo_sat. split; [tauto|]. intros H. pick H. apply H. }
  destruct (str_eqb_spec n (u "empty")) as [->|N5].
  { apply exact_then, exact_ret. rewrite (empty_spec h x). unfold pseudo_sat. split; [tauto|]. intros H. pick H. apply H. }
  destruct (str_eqb_spec n (u "root")) as [->|N6].
  { apply exact_ret. rewrite (root_spec h x). unfold pseudo_sat. split; [tauto|]. intros H. pick H. apply H. }
  destruct (str_eqb_spec n (u "contains")) as [->|N7].
  { destruct a as [a|]; [|apply exact_raise]. apply exact_then.
    assert (Z : pseudo_sat h x (u "contains") (Some a) <-> unquote a = [] \/ exists s, text_of h x s /\ substring (unquote a) s).
    { unfold pseudo_sat. split; [intros H; pick H; destruct H as [_ [b [Q H]]]; assert (a = b) as -> by congruence; exact H|].
      intros H. do 10 right. split; [reflexivity|]. exists a. auto. }
    eapply exact_iff; [symmetry; exact Z|]. destruct (unquote a) as [|c t] eqn:U; [apply exact_ret; tauto|].
    apply exact_then, exact_ret. rewrite (contains_text h F FN FF DB). split; [tauto|]. intros [H | H]; [discriminate H|exact H]. }
  destruct (str_eqb_spec n (u "comment")) as [->|N8].
  { apply exact_ret. unfold has_name. rewrite str_eqb_iff. split.
    - intros H. exfalso. unfold is_element, node_name in E. unfold name_of in H. rewrite H in E. vm_compute in E. discriminate E.
    - intros H. exfalso. unfold pseudo_sat in H. pick H. }
  destruct (str_eqb_spec n (u "first-of-type")) as [->|N9].
  { apply exact_then, exact_ret. rewrite (first_type_spec h F FN x E). unfold pseudo_sat. split; [tauto|]. intros H. pick H. apply H. }
  destruct (str_eqb_spec n (u "last-of-type")) as [->|N10].
  { apply exact_then, exact_ret. rewrite (last_type_spec h F FN x E). unfold pseudo_sat. split; [tauto|]. intros H. pick H. apply H. }
  destruct (str_eqb_spec n (u "nth-of-type")) as [->|N11].
  { apply exact_then, exact_ret. unfold type_index, same_type.
    rewrite (nth_spec h F FN (same_name h x) (fun y => str_eqb (lower (name_of h y)) (lower (name_of h x))) x a E (same_true h x) eq_refl). unfold pseudo_sat. split; [tauto|]. intros H. pick H. apply H. }
  destruct (str_eqb_spec n (u "only-of-type")) as [->|N12].
  { apply exact_then, exact_ret. rewrite andb_true_iff, (first_type_spec h F FN x E), (last_type_spec h F FN x E). unfold pseudo_sat. split; [tauto|]. intros H. pick H. apply H. }
  apply exact_raise.
Qed.

(* compounds, given the level below *)
Definition arg_ok (l : selector) : Prop := forall c, In c l -> exists i ss, c = [(None, Compound i ss)] /\ forallb tidy_simple ss = true /\ forallb simple_nots ss = true.
Lemma arg_ok_spec a l : tidy_simple (SNot a (Some l)) = true -> simple_nots (SNot a (Some l)) = true -> arg_ok l.
Proof.
  cbn [tidy_simple simple_nots]. rewrite !forallb_forall. intros H1 H2 c Hc. specialize (H1 c Hc). specialize (H2 c Hc). cbn beta in H1, H2.
  destruct c as [|[cb [i ss]] [|]]; try discriminate H2; [|destruct cb; discriminate H2]. destruct cb; [discriminate H2|]. exists i, ss. split; [reflexivity|]. split; [|exact H2].
  cbn [forallb snd] in H1. apply andb_true_iff in H1. apply H1.
Qed.
Lemma sat_not a s x : sat_simple h (SNot a (Some s)) x <-> ~ sat h s x.
Proof.
  cbn [sat_simple]. apply not_iff_compat. unfold sat, sat_complex. induction s as [|c s IH].
  - split; [intros []|intros [c [[] _]]].
  - rewrite IH. clear IH.
    assert (K : forall sat1 sat2 : compound -> nat -> Prop, (forall c x, sat1 c x <-> sat2 c x) -> forall c ok1 ok2, (forall x, ok1 x <-> ok2 x) -> forall x, ends_at h sat1 c ok1 x <-> ends_at h sat2 c ok2 x).
    { intros sat1 sat2 E c0. induction c0 as [|[cb c1] t IHc]; intros ok1 ok2 EO y; [apply EO|]. cbn [ends_at]. apply IHc. intros z. rewrite E. destruct cb as [cb|]; [|tauto].
      assert (E2 : (exists y, related h cb y z /\ ok1 y) <-> (exists y, related h cb y z /\ ok2 y)) by (split; intros [w [W1 W2]]; exists w; (split; [exact W1|apply EO; exact W2])). tauto. }
    rewrite (K _ (sat_compound h)) with (ok2 := fun _ => False).
    + split; [intros [H | [d [H1 H2]]]; [exists c; split; [left; reflexivity|exact H]|exists d; split; [right; exact H1|exact H2]]|].
      intros [d [[<- | H1] H2]]; [left; exact H2|right; exists d; auto].
    + intros [i ss] y. unfold sat_compound. cbn [simples]. assert (A : (fix all (l : list simple) : Prop := match l with [] => True | s0 :: t => sat_simple h s0 y /\ all t end) ss <-> forall s0, In s0 ss -> sat_simple h s0 y).
      { induction ss as [|s0 ss IHs]; [split; [intros _ s0 []|reflexivity]|]. rewrite IHs. split.
        - intros [H1 H2] t [<- | Ht]; auto.
        - intros H. split; [apply H; left; reflexivity|intros t Ht; apply H; right; exact Ht]. }
      rewrite A. reflexivity.
    + reflexivity.
Qed.

Section Level.
Variable deeper : nat -> selector -> M bool.
Hypothesis deeper_keeps : forall x s, arg_ok s -> keeps (deeper x s).
Hypothesis deeper_exact : forall x s, arg_ok s -> is_element h x -> exact (deeper x s) (sat h s x).

Lemma simple_keeps x s : tidy_simple s = true -> simple_nots s = true -> keeps (matches_simple h over deeper x s).
Proof.
  intros T P. unfold matches_simple. apply keeps_bind; [apply keeps_tick|intros _].
  assert (Kn : forall a p, s = SNot a p -> keeps (matches_not deeper x p)).
  { intros a p ->. unfold matches_not. destruct p as [l|]; [|apply keeps_ret]. apply keeps_bind; [apply deeper_keeps; eapply arg_ok_spec; eauto|intros b; apply keeps_ret]. }
  destruct (negb (elem h x)); destruct s; try apply keeps_ret; try apply keeps_pseudo; try (apply keeps_bind; [apply keeps_tick|intros _; apply keeps_ret]); eapply Kn; reflexivity.
Qed.
Lemma simple_exact x s : tidy_simple s = true -> simple_nots s = true -> is_element h x -> exact (matches_simple h over deeper x s) (sat_simple h s x).
Proof.
  intros T P E. unfold matches_simple. apply exact_then. assert (elem h x = true) as -> by (apply elem_spec; exact E). cbn [negb].
  destruct s as [n|n|n| |n o|n a|a p]; cbn [sat_simple].
  - cbn [tidy_simple] in T. apply str_eqb_iff in T. apply exact_ret. rewrite orb_true_iff, !str_eqb_iff, T. unfold name_of, node_name. split; [intros [H | H]; [rewrite H; exact T|exact H]|tauto].
  - destruct n as [|c n]; [discriminate T|]. apply exact_ret. unfold id_test, attrs_of. destruct (attrs (cell_at h x)) as [d|].
    + destruct (dict_at h d) as [|p l] eqn:Ed; [split; [intros H; discriminate H|intros [d' [Q1 Q2]]; assert (d' = d) as -> by congruence; rewrite Ed in Q2; discriminate Q2]|].
      destruct (assoc (u "id") (p :: l)) as [[v|]|] eqn:Ea.
      * rewrite str_eqb_iff. split; [intros ->; exists d; split; [reflexivity|rewrite Ed; exact Ea]|]. intros [d' [Q1 Q2]]. assert (d' = d) as -> by congruence. rewrite Ed in Q2. congruence.
      * split; [intros H; discriminate H|]. intros [d' [Q1 Q2]]. assert (d' = d) as -> by congruence. rewrite Ed in Q2. congruence.
      * split; [intros H; discriminate H|]. intros [d' [Q1 Q2]]. assert (d' = d) as -> by congruence. rewrite Ed in Q2. congruence.
    + split; [intros H; discriminate H|]. intros [d' [Q1 _]]. discriminate Q1.
  - apply exact_then, exact_ret. apply class_spec.
  - apply exact_ret. tauto.
  - apply exact_then, exact_ret. apply attr_test_spec.
  - apply pseudo_exact. exact E.
  - unfold matches_not. destruct p as [l|]; [|apply exact_ret; tauto]. eapply exact_iff; [symmetry; apply (sat_not a)|]. apply exact_not. apply deeper_exact; [eapply arg_ok_spec; eauto|exact E].
Qed.
Lemma all_keeps x ss : forallb tidy_simple ss = true -> forallb simple_nots ss = true -> keeps (matches_all h over deeper x ss).
Proof.
  induction ss as [|s ss IH]; intros T P; cbn [matches_all]; [apply keeps_ret|]. cbn [forallb] in T, P. apply andb_true_iff in T. apply andb_true_iff in P.
  apply keeps_bind; [apply simple_keeps; tauto|]. intros b. destruct b; [apply IH; tauto|apply keeps_ret].
Qed.
Lemma all_exact x ss : forallb tidy_simple ss = true -> forallb simple_nots ss = true -> is_element h x -> exact (matches_all h over deeper x ss) (forall s, In s ss -> sat_simple h s x).
Proof.
  intros T P E. induction ss as [|s ss IH]; cbn [matches_all].
  - apply exact_ret. split; [intros _ s []|reflexivity].
  - cbn [forallb] in T, P. apply andb_true_iff in T. apply andb_true_iff in P. eapply exact_iff; [|apply exact_and; [apply simple_exact|apply IH]; tauto].
    split; [intros [H1 H2] t [<- | Ht]; auto|]. intros H. split; [apply H; left; reflexivity|intros t Ht; apply H; right; exact Ht].
Qed.
(* a non-element never passes a simple selector that anchors *)
Lemma elem_hd x l : elem h x = false -> opt_is (hd_error (filter (elem h) l)) x = false.
Proof.
  intros E. destruct (hd_error (filter (elem h) l)) as [y|] eqn:Q; [|reflexivity]. cbn [opt_is]. apply Nat.eqb_neq. intros ->.
  assert (I : In x (filter (elem h) l)) by (destruct (filter (elem h) l); [discriminate Q|injection Q as ->; left; reflexivity]). apply filter_In in I. destruct I. congruence.
Qed.
Lemma hd_false x (l : list nat) : (forall y, In y l -> elem h y = true) -> elem h x = false -> opt_is (hd_error l) x = false.
Proof.
  intros A E. destruct l as [|y l]; [reflexivity|]. cbn [hd_error opt_is]. apply Nat.eqb_neq. intros ->. specialize (A x (or_introl eq_refl)). congruence.
Qed.
Lemma index_false want x l : elem h x = false -> forall n, index_go h want x l n None = None.
Proof.
  intros E. induction l as [|c l IH]; intros n; cbn [index_go]; [reflexivity|]. destruct (elem h c && want c) eqn:Q; [|apply IH].
  destruct (c =? x) eqn:Ec; [|apply IH]. apply Nat.eqb_eq in Ec. subst c. rewrite E in Q. discriminate Q.
Qed.
Lemma pseudo_nonelem x n a : in_strs n positional = true -> elem h x = false -> exact (matches_pseudo h over x n a) False.
Proof.
  intros A E.
  assert (EC : forall p y, In y (element_children h p) -> elem h y = true) by (intros p y Hy; unfold element_children in Hy; apply filter_In in Hy; apply Hy).
  assert (OT : forall p t y, In y (of_type h p t) -> elem h y = true) by (intros p t y Hy; unfold of_type in Hy; apply filter_In in Hy; eapply EC; apply Hy).
  assert (FC : is_first_child h x = false) by (unfold is_first_child; destruct (par (cell_at h x)) as [p|]; [|reflexivity]; apply hd_false; [apply EC|exact E]).
  assert (LC : is_last_child h x = false) by (unfold is_last_child; destruct (par (cell_at h x)) as [p|]; [|reflexivity]; apply hd_false; [intros y Hy; apply in_rev in Hy; eapply EC; exact Hy|exact E]).
  assert (FT : is_first_of_type h x = false) by (unfold is_first_of_type, first_by_type; destruct (par (cell_at h x)) as [p|]; [|reflexivity]; apply hd_false; [apply OT|exact E]).
  assert (LT : is_last_of_type h x = false) by (unfold is_last_of_type, last_by_type; destruct (par (cell_at h x)) as [p|]; [|reflexivity]; apply hd_false; [intros y Hy; apply in_rev in Hy; eapply OT; exact Hy|exact E]).
  assert (NC : match par (cell_at h x) with None => false | Some p => nth_test a (element_index h p x) end = false) by (destruct (par (cell_at h x)) as [p|]; [|reflexivity]; unfold element_index; rewrite (index_false _ _ _ E); unfold nth_test; destruct (parse_nth a) as [[]|]; reflexivity).
  assert (NT : match par (cell_at h x) with None => false | Some p => nth_test a (type_index h p x) end = false) by (destruct (par (cell_at h x)) as [p|]; [|reflexivity]; unfold type_index; rewrite (index_false _ _ _ E); unfold nth_test; destruct (parse_nth a) as [[]|]; reflexivity).
  assert (Z : false = true <-> False) by (split; intros X; [discriminate X|destruct X]).
  apply in_strs_In in A. unfold positional in A. cbn [In] in A. unfold matches_pseudo.
  repeat (destruct A as [<- | A]; [cbn -[tick nth_test element_index type_index is_first_child is_last_child is_first_of_type is_last_of_type];
    rewrite ?FC, ?LC, ?FT, ?LT, ?NC, ?NT; apply exact_then, exact_ret; exact Z|]). destruct A.
Qed.
Lemma all_anchored x ss : existsb anchors ss = true -> ~ is_element h x -> exact (matches_all h over deeper x ss) False.
Proof.
  intros A E. apply elem_false in E. induction ss as [|s ss IH]; [discriminate A|]. cbn [matches_all]. cbn [existsb] in A.
  assert (B : anchors s = true \/ existsb anchors ss = true) by (apply orb_true_iff; exact A). clear A.
  destruct B as [B | B].
  - assert (Q : exact (matches_simple h over deeper x s) False).
    { unfold matches_simple. rewrite E. cbn [negb]. apply exact_then. destruct s; try discriminate B; [| | | | |apply pseudo_nonelem; assumption]; apply exact_ret; split; intros X; try discriminate X; destruct X. }
    intros st b st' R. unfold bind in R. destruct (matches_simple h over deeper x s st) as [c s0|e] eqn:Es; [|discriminate R]. pose proof (Q _ _ _ Es) as Y.
    destruct c; [tauto|]. injection R as <- _. split; intros X; [discriminate X|destruct X].
  - intros st b st' R. unfold bind in R. destruct (matches_simple h over deeper x s st) as [c s0|e] eqn:Es; [|discriminate R].
    destruct c; [exact (IH B _ _ _ R)|]. injection R as <- _. split; intros X; [discriminate X|destruct X].
Qed.
Definition comp_ok (c : compound) : Prop := forallb tidy_simple (simples c) = true /\ forallb simple_nots (simples c) = true.
Lemma compound_keeps x c : comp_ok c -> keeps (matches_compound h over deeper x c).
Proof. intros [T P]. apply all_keeps; assumption. Qed.
Lemma compound_exact x c : comp_ok c -> (is_element h x \/ anchored c = true) -> exact (matches_compound h over deeper x c) (sat_compound h c x).
Proof.
  intros [T P] D. unfold matches_compound, sat_compound. destruct (elem h x) eqn:E.
  - apply elem_spec in E. eapply exact_iff; [|apply all_exact; assumption]. tauto.
  - apply elem_false in E. destruct D as [D | D]; [contradiction|]. eapply exact_iff; [|apply all_anchored; assumption]. tauto.
Qed.
End Level.

(* selectors without combinators, as in :not *)
Lemma args_keep room : forall x s, arg_ok s -> keeps (matches_at h over room x s).
Proof.
  induction room as [|r IH]; intros x s A; cbn [matches_at]; (apply keeps_bind; [apply keeps_tick|intros _]); [apply keeps_raise|].
  assert (K1 : forall c, In c s -> keeps (matches_complex h over (S r) (matches_at h over r) x c)).
  { intros c Hc. destruct (A c Hc) as [i [ss [-> [T P]]]]. unfold matches_complex. cbn [rev app]. apply keeps_bind; [apply compound_keeps; [exact IH|split; assumption]|].
    intros b. destruct b; apply keeps_ret. }
  assert (K2 : keeps (matches_any h over (S r) (matches_at h over r) x s)).
  { clear A. induction s as [|c s IHs]; cbn [matches_any]; [apply keeps_ret|]. apply keeps_bind; [apply keeps_tick|intros _]. apply keeps_bind; [apply K1; left; reflexivity|].
    intros b. destruct b; [apply keeps_ret|]. apply IHs. intros d Hd. apply K1. right. exact Hd. }
  destruct s as [|c [|d s]]; [exact K2|apply K1; left; reflexivity|exact K2].
Qed.
Lemma args_exact room : forall x s, arg_ok s -> is_element h x -> exact (matches_at h over room x s) (sat h s x).
Proof.
  induction room as [|r IH]; intros x s A E; cbn [matches_at]; apply exact_then; [apply exact_raise|].
  assert (K1 : forall c, In c s -> exact (matches_complex h over (S r) (matches_at h over r) x c) (sat_complex h c x)).
  { intros c Hc. destruct (A c Hc) as [i [ss [-> [T P]]]]. unfold matches_complex, sat_complex. cbn [rev app ends_at]. apply exact_and; [|apply exact_ret; tauto].
        apply compound_exact; [exact IH|split; assumption|left; exact E]. }
  assert (K2 : exact (matches_any h over (S r) (matches_at h over r) x s) (sat h s x)).
  { clear A. induction s as [|c s IHs]; cbn [matches_any]; [apply exact_ret; split; [intros H; discriminate H|intros [c [[] _]]]|].
    apply exact_then. eapply exact_iff; [|apply exact_or; [apply K1; left; reflexivity|apply IHs; intros d Hd; apply K1; right; exact Hd]].
    unfold sat. split; [intros [H | [d [H1 H2]]]; [exists c; split; [left; reflexivity|exact H]|exists d; split; [right; exact H1|exact H2]]|].
    intros [d [[<- | H1] H2]]; [left; exact H2|right; exists d; auto]. }
  destruct s as [|c [|d s]]; [exact K2| |exact K2]. eapply exact_iff; [|apply K1; left; reflexivity].
  unfold sat. split; [intros H; exists c; split; [left; reflexivity|exact H]|]. intros [d [[<- | []] H]]. exact H.
Qed.
End S.
