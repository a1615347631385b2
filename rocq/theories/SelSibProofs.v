(* Proofs: sibling positions, text and pseudo-classes against SelSpec. *)
From Verif Require Import Str StrFacts SerializerModel SanModel SanFacts DomModel DomSpec DomViewProofs DomProofs DomInvProofs DomFinal SelModel SelSpec SelNodeProofs.
From Coq Require Import Lia ZArith ZifyBool ZifyN ZifyNat.
Open Scope nat_scope.

(* C32 *)
Lemma matches_nth_spec i a b : matches_nth i a b = true <-> an_plus_b a b i.
Proof.
  unfold matches_nth, an_plus_b. destruct (Z.eqb_spec a 0) as [->|Ha].
  - rewrite Z.eqb_eq. split; [intros ->; exists 0%Z; lia|]. intros [n [_ ->]]. lia.
  - destruct (Z.ltb_spec 0 a) as [P|P]; rewrite andb_true_iff, Z.leb_le, Z.eqb_eq.
    + split.
      * intros [H1 H2]. exists ((i - b) / a)%Z. split; [apply Z.div_pos; lia|]. pose proof (Z.div_mod (i - b) a Ha). lia.
      * intros [n [Hn ->]]. replace (a * n + b - b)%Z with (n * a)%Z by lia. split; [nia|]. apply Z.mod_mul. exact Ha.
    + split.
      * intros [H1 H2]. exists ((i - b) / a)%Z. pose proof (Z.div_mod (i - b) a Ha). split; [nia|lia].
      * intros [n [Hn ->]]. replace (a * n + b - b)%Z with (n * a)%Z by lia. split; [nia|]. apply Z.mod_mul. exact Ha.
Qed.

Section S.
Variable h : heap.
Hypothesis F : forest h.
Hypothesis FN : forall x p, parent h x = Some p -> is_fragment h x -> ~ is_element h x.
Notation elem := (elem h).

Lemma sib_cases x : is_element h x -> (parent h x = None /\ forall l1 l2, ~ sibling_list h x l1 l2) \/
  exists p l1 l2, parent h x = Some p /\ children h p = (l1 ++ x :: l2)%list /\ NoDup (l1 ++ x :: l2) /\ sibling_list h x l1 l2 /\
    forall l1' l2', sibling_list h x l1' l2' -> l1' = l1 /\ l2' = l2.
Proof.
  intros E. destruct (parent h x) as [p|] eqn:P; [right|left; split; [reflexivity|intros l1 l2 [p [Q _]]; congruence]].
  assert (I : In x (children h p)) by (apply (parent_has_child h F p x P); intros Q; exact (FN x p P Q E)).
  apply in_split in I. destruct I as [l1 [l2 C]]. exists p, l1, l2. pose proof (child_once h F p) as ND. rewrite C in ND.
  split; [reflexivity|]. split; [exact C|]. split; [exact ND|]. split; [exists p; auto|].
  intros l1' l2' [q [Q1 Q2]]. assert (q = p) as -> by congruence. rewrite C in Q2. symmetry in Q2.
  clear - Q2 ND. revert l1 ND Q2. induction l1' as [|y l1' IH]; intros [|z l1] ND Q; cbn in Q.
  - injection Q as ->. auto.
  - injection Q as Q1 Q2. subst. exfalso. inversion ND; subst. apply H1. apply in_or_app. right. left. reflexivity.
  - injection Q as Q1 Q2. subst. exfalso. cbn in ND. inversion ND; subst. apply H1. apply in_or_app. right. left. reflexivity.
  - injection Q as -> Q. inversion ND; subst. destruct (IH l1 H2 Q) as [-> ->]. auto.
Qed.

Lemma opt_is_hd f l1 x l2 : NoDup (l1 ++ x :: l2) -> f x = true ->
  (opt_is (hd_error (filter f (l1 ++ x :: l2))) x = true <-> forall y, In y l1 -> f y = false).
Proof.
  intros ND Fx. rewrite filter_app. cbn [filter]. rewrite Fx. destruct (filter f l1) as [|y l] eqn:E.
  - cbn. rewrite Nat.eqb_refl. split; [|reflexivity]. intros _ y Hy. destruct (f y) eqn:Ey; [|reflexivity]. assert (In y (filter f l1)) by (apply filter_In; auto). rewrite E in H. destruct H.
  - cbn. split.
    + intros Q. apply Nat.eqb_eq in Q. subst y. exfalso. assert (In x l1) by (apply (filter_In f); rewrite E; left; reflexivity).
      apply NoDup_remove_2 in ND. apply ND. apply in_or_app. left. exact H.
    + intros Q. assert (In y (filter f l1)) by (rewrite E; left; reflexivity). apply filter_In in H. destruct H as [H1 H2]. rewrite (Q y H1) in H2. discriminate H2.
Qed.
Lemma filter_rev {A} (f : A -> bool) l : filter f (rev l) = rev (filter f l).
Proof. induction l as [|a l IH]; [reflexivity|]. cbn [rev filter]. rewrite filter_app, IH. cbn [filter]. destruct (f a); cbn [rev]; [reflexivity|apply app_nil_r]. Qed.
Lemma NoDup_app_remove_r {A} (a b : list A) : NoDup (a ++ b) -> NoDup a.
Proof. induction a as [|x a IH]; intros H; [constructor|]. inversion H; subst. constructor; [intros Q; apply H2; apply in_or_app; left; exact Q|auto]. Qed.
Lemma opt_is_last f l1 x l2 : NoDup (l1 ++ x :: l2) -> f x = true ->
  (opt_is (hd_error (rev (filter f (l1 ++ x :: l2)))) x = true <-> forall y, In y l2 -> f y = false).
Proof.
  intros ND Fx. assert (E : rev (filter f (l1 ++ x :: l2)) = filter f (rev l2 ++ x :: rev l1)).
  { rewrite <- filter_rev, rev_app_distr. cbn [rev]. rewrite <- app_assoc. reflexivity. }
  rewrite E. rewrite opt_is_hd; [|apply NoDup_rev in ND; rewrite rev_app_distr in ND; cbn [rev] in ND; rewrite <- app_assoc in ND; exact ND|exact Fx].
  split; intros H y Hy; apply H; [apply -> in_rev; exact Hy|apply in_rev in Hy; exact Hy].
Qed.

Lemma of_type_filter p n : of_type h p n = filter (fun c => elem c && str_eqb (lower (name_of h c)) n) (kidl h p).
Proof.
  unfold of_type, element_children. induction (kidl h p) as [|c l IH]; [reflexivity|]. cbn [filter]. destruct (elem c); cbn [filter andb]; [|exact IH].
  destruct (str_eqb _ n); rewrite IH; reflexivity.
Qed.
Lemma no_el (want : nat -> Prop) (w : nat -> bool) l : (forall y, w y = true <-> want y) ->
  ((forall y, In y l -> elem y && w y = false) <-> no_element h want l).
Proof.
  intros W. unfold no_element. split; intros H y Hy.
  - intros [E1 E2]. apply elem_spec in E1. apply W in E2. specialize (H y Hy). rewrite E1, E2 in H. discriminate H.
  - destruct (elem y) eqn:E1; [|reflexivity]. destruct (w y) eqn:E2; [|reflexivity]. exfalso. apply (H y Hy). split; [apply elem_spec; exact E1|apply W; exact E2].
Qed.
Lemma any_true : forall y : nat, true = true <-> any y. Proof. intros y. unfold any. tauto. Qed.
Lemma same_true x y : str_eqb (lower (name_of h y)) (lower (name_of h x)) = true <-> same_name h x y.
Proof. rewrite str_eqb_iff. reflexivity. Qed.
Lemma filter_any l : filter elem l = filter (fun y => elem y && true) l.
Proof. induction l as [|c l IH]; [reflexivity|]. cbn. rewrite andb_true_r, IH. reflexivity. Qed.

Lemma first_child_spec x : is_element h x -> (is_first_child h x = true <-> first_among h any x).
Proof.
  intros E. unfold is_first_child, first_among. destruct (sib_cases x E) as [[P N] | [p [l1 [l2 [P [C [ND [S U]]]]]]]]; unfold parent in P; rewrite P.
  - split; [intros H; discriminate H|]. intros [l1 [l2 [H _]]]. destruct (N _ _ H).
  - unfold element_children. unfold children in C. rewrite C, filter_any, opt_is_hd by (auto; rewrite andb_true_r; apply elem_spec; exact E).
    rewrite (no_el any (fun _ => true) l1 any_true). split; [intros H; exists l1, l2; auto|]. intros [a [b [H1 H2]]]. destruct (U _ _ H1) as [-> _]. exact H2.
Qed.
Lemma last_child_spec x : is_element h x -> (is_last_child h x = true <-> last_among h any x).
Proof.
  intros E. unfold is_last_child, last_among. destruct (sib_cases x E) as [[P N] | [p [l1 [l2 [P [C [ND [S U]]]]]]]]; unfold parent in P; rewrite P.
  - split; [intros H; discriminate H|]. intros [l1 [l2 [H _]]]. destruct (N _ _ H).
  - unfold element_children. unfold children in C. rewrite C, filter_any, opt_is_last by (auto; rewrite andb_true_r; apply elem_spec; exact E).
    rewrite (no_el any (fun _ => true) l2 any_true). split; [intros H; exists l1, l2; auto|]. intros [a [b [H1 H2]]]. destruct (U _ _ H1) as [_ ->]. exact H2.
Qed.
Lemma first_type_spec x : is_element h x -> (is_first_of_type h x = true <-> first_among h (same_name h x) x).
Proof.
  intros E. unfold is_first_of_type, first_among, first_by_type. destruct (sib_cases x E) as [[P N] | [p [l1 [l2 [P [C [ND [S U]]]]]]]]; unfold parent in P; rewrite P.
  - split; [intros H; discriminate H|]. intros [l1 [l2 [H _]]]. destruct (N _ _ H).
  - rewrite of_type_filter. unfold children in C. rewrite C, opt_is_hd by (auto; rewrite str_eqb_refl, andb_true_r; apply elem_spec; exact E).
    rewrite (no_el (same_name h x) (fun y => str_eqb (lower (name_of h y)) (lower (name_of h x))) l1 (same_true x)).
    split; [intros H; exists l1, l2; auto|]. intros [a [b [H1 H2]]]. destruct (U _ _ H1) as [-> _]. exact H2.
Qed.
Lemma last_type_spec x : is_element h x -> (is_last_of_type h x = true <-> last_among h (same_name h x) x).
Proof.
  intros E. unfold is_last_of_type, last_among, last_by_type. destruct (sib_cases x E) as [[P N] | [p [l1 [l2 [P [C [ND [S U]]]]]]]]; unfold parent in P; rewrite P.
  - split; [intros H; discriminate H|]. intros [l1 [l2 [H _]]]. destruct (N _ _ H).
  - rewrite of_type_filter. unfold children in C. rewrite C, opt_is_last by (auto; rewrite str_eqb_refl, andb_true_r; apply elem_spec; exact E).
    rewrite (no_el (same_name h x) (fun y => str_eqb (lower (name_of h y)) (lower (name_of h x))) l2 (same_true x)).
    split; [intros H; exists l1, l2; auto|]. intros [a [b [H1 H2]]]. destruct (U _ _ H1) as [_ ->]. exact H2.
Qed.

(* indices *)
Lemma index_go_after w x l : forall n r, ~ In x l -> index_go h w x l n r = r.
Proof.
  induction l as [|c l IH]; intros n r N; [reflexivity|]. cbn [index_go]. assert (c =? x = false) as -> by (apply Nat.eqb_neq; intros ->; apply N; left; reflexivity).
  assert (~ In x l) by (intros Q; apply N; right; exact Q). destruct (elem c && w c); apply IH; assumption.
Qed.
Lemma index_go_at w x l1 l2 : forall n r, NoDup (l1 ++ x :: l2) -> elem x = true -> w x = true ->
  index_go h w x (l1 ++ x :: l2) n r = Some (S (n + List.length (filter (fun y => elem y && w y) l1))).
Proof.
  induction l1 as [|c l1 IH]; intros n r ND E W.
  - cbn [app index_go filter List.length]. rewrite E, W. cbn [andb]. rewrite Nat.eqb_refl, Nat.add_0_r. apply index_go_after. apply NoDup_cons_iff in ND. apply ND.
  - cbn [app index_go filter]. cbn [app] in ND. apply NoDup_cons_iff in ND. destruct ND as [N1 ND].
    assert (c =? x = false) as -> by (apply Nat.eqb_neq; intros ->; apply N1; apply in_or_app; right; left; reflexivity).
    destruct (elem c && w c); rewrite IH by assumption; cbn [List.length]; f_equal; lia.
Qed.
Lemma nth_spec (want : nat -> Prop) w x arg : is_element h x -> (forall y, w y = true <-> want y) -> want x ->
  ((match par (cell_at h x) with None => false | Some p => nth_test arg (index_go h w x (kidl h p) 0 None) end) = true <->
   exists a b i, parse_nth arg = Some (a, b) /\ nth_among h want x i /\ an_plus_b a b i).
Proof.
  intros E W Wx. destruct (sib_cases x E) as [[P N] | [p [l1 [l2 [P [C [ND [S U]]]]]]]]; unfold parent in P; rewrite P.
  - split; [intros H; discriminate H|]. intros [a [b [i [_ [[l1 [l2 [js [H _]]]] _]]]]]. destruct (N _ _ H).
  - unfold children in C. rewrite C, index_go_at; [|exact ND|apply elem_spec; exact E|apply W; exact Wx]. unfold nth_test.
    set (js := filter (fun y => elem y && w y) l1). cbn [Nat.add].
    assert (J : forall i, nth_among h want x i <-> i = Z.of_nat (Datatypes.S (List.length js))).
    { intros i. unfold nth_among. split.
      - intros [a [b [ks [H1 [-> [H3 H4]]]]]]. destruct (U _ _ H1) as [-> ->]. assert (List.length ks = List.length js); [|lia].
        assert (NJ : NoDup js) by (unfold js; apply NoDup_filter; apply NoDup_app_remove_r in ND; exact ND).
        assert (EQ : forall y, In y ks <-> In y js) by (intros y; rewrite H4; unfold js; rewrite filter_In, andb_true_iff, elem_spec, W; tauto).
        apply Nat.le_antisymm; apply NoDup_incl_length; auto; intros y Hy; apply EQ; exact Hy.
      - intros ->. exists l1, l2, js. split; [exact S|]. split; [lia|]. split; [unfold js; apply NoDup_filter; apply NoDup_app_remove_r in ND; exact ND|].
        intros y. unfold js. rewrite filter_In, andb_true_iff, elem_spec, W. tauto. }
    destruct (parse_nth arg) as [[a b]|] eqn:Q.
    + rewrite matches_nth_spec. split; [intros H; exists a, b, (Z.of_nat (Datatypes.S (List.length js))); split; [reflexivity|]; split; [apply J; reflexivity|exact H]|].
      intros [a' [b' [i [H1 [H2 H3]]]]]. apply J in H2. subst i. assert (a' = a) as -> by congruence. assert (b' = b) as -> by congruence. exact H3.
    + split; [intros H; discriminate H|]. intros [a' [b' [i [H1 _]]]]. discriminate H1.
Qed.

(* the previous element sibling *)
Lemma prev_go_after x l : forall p r, ~ In x l -> prev_elem_go h x l p r = r.
Proof.
  induction l as [|c l IH]; intros p r N; [reflexivity|]. cbn [prev_elem_go]. assert (c =? x = false) as -> by (apply Nat.eqb_neq; intros ->; apply N; left; reflexivity).
  apply IH. intros Q; apply N; right; exact Q.
Qed.
Lemma prev_go_at x l1 l2 : forall p r, NoDup (l1 ++ x :: l2) ->
  prev_elem_go h x (l1 ++ x :: l2) p r = match rev (filter elem l1) with y :: _ => Some y | [] => p end.
Proof.
  induction l1 as [|c l1 IH]; intros p r ND.
  - cbn [app prev_elem_go filter rev]. rewrite Nat.eqb_refl. apply prev_go_after. apply NoDup_cons_iff in ND. apply ND.
  - cbn [app prev_elem_go filter]. cbn [app] in ND. apply NoDup_cons_iff in ND. destruct ND as [N1 ND].
    assert (c =? x = false) as -> by (apply Nat.eqb_neq; intros ->; apply N1; apply in_or_app; right; left; reflexivity).
    rewrite IH by exact ND. destruct (elem c); [|reflexivity]. cbn [rev]. destruct (rev (filter elem l1)); reflexivity.
Qed.
Lemma last_elem l1 y t : rev (filter elem l1) = y :: t -> exists a b, l1 = (a ++ y :: b)%list /\ is_element h y /\ no_element h any b.
Proof.
  revert y t. induction l1 as [|c l1 IH] using rev_ind; intros y t E; [discriminate E|]. rewrite filter_app, rev_app_distr in E. cbn [filter] in E.
  destruct (elem c) eqn:Ec; cbn [rev app] in E.
  - injection E as -> _. exists l1, []. split; [reflexivity|]. split; [apply elem_spec; exact Ec|intros z []].
  - destruct (IH _ _ E) as [a [b [-> [H1 H2]]]]. exists a, (b ++ [c])%list. split; [rewrite <- app_assoc; reflexivity|]. split; [exact H1|].
    intros z Hz. apply in_app_or in Hz. destruct Hz as [Hz | [<- | []]]; [apply H2; exact Hz|]. intros [Q _]. apply elem_spec in Q. congruence.
Qed.
Lemma prev_sib_spec x y : is_element h x ->
  ((match par (cell_at h x) with None => None | Some p => previous_sibling h p x end) = Some y <-> is_element h y /\ related h Adj y x).
Proof.
  intros E. destruct (sib_cases x E) as [[P N] | [p [l1 [l2 [P [C [ND [S U]]]]]]]]; unfold parent in P; rewrite P.
  - split; [intros H; discriminate H|]. intros [_ [a [b [c [H _]]]]]. destruct (N _ _ H).
  - unfold previous_sibling. unfold children in C. rewrite C, prev_go_at by exact ND. cbn [related]. split.
    + intros H. destruct (rev (filter elem l1)) as [|z t] eqn:Q; [discriminate H|]. assert (z = y) as -> by congruence.
      destruct (last_elem l1 y t Q) as [a [b [-> [H1 H2]]]]. split; [exact H1|]. exists a, b, l2. auto.
    + intros [Ey [a [b [c [H1 H2]]]]]. destruct (U _ _ H1) as [<- <-]. rewrite filter_app. cbn [filter]. apply elem_spec in Ey. rewrite Ey.
      assert (filter elem b = []) as ->; [|rewrite rev_app_distr; reflexivity].
      assert (K : forall z, In z b -> elem z = false) by (intros z Hz; apply elem_false; intros Q; apply (H2 z Hz); split; [exact Q|exact I]).
      clear - K. induction b as [|z b IH]; [reflexivity|]. cbn. rewrite (K z (or_introl eq_refl)). apply IH. intros w Hw. apply K. right. exact Hw.
Qed.

(* :empty, :root *)
Lemma empty_spec x : is_empty h x = true <-> empty_node h x.
Proof.
  unfold is_empty, empty_node, children. rewrite forallb_forall. split; intros H y Hy; specialize (H y Hy).
  - unfold child_counts in H. destruct (elem y) eqn:E; [discriminate H|]. split; [apply elem_false; exact E|]. intros N s D.
    unfold has_text in H. rewrite D in H. change (name_of h y) with (node_name h y) in H. rewrite N, str_eqb_refl in H. cbn in H. destruct (strip s); [reflexivity|discriminate H].
  - destruct H as [H1 H2]. unfold child_counts. apply elem_false in H1. rewrite H1. destruct (str_eqb (name_of h y) (u "#text")) eqn:N; [|reflexivity].
    apply str_eqb_iff in N. specialize (H2 N). unfold has_text. destruct (data (cell_at h y)) as [|s|d]; cbn; try reflexivity. rewrite (H2 s eq_refl). reflexivity.
Qed.
Lemma root_spec x : is_root h x = true <-> exists p, parent h x = Some p /\ (node_name h p = u "#document" \/ node_name h p = u "#document-fragment").
Proof.
  unfold is_root, parent, has_name. destruct (par (cell_at h x)) as [p|].
  - rewrite orb_true_iff, !str_eqb_iff. split; [intros H; exists p; auto|]. intros [q [Q H]]. assert (q = p) as -> by congruence. exact H.
  - split; [intros H; discriminate H|]. intros [q [Q _]]. discriminate Q.
Qed.

(* :contains *)
Hypothesis FF : full_forest h.
Hypothesis DB : forall x, exists n, depth (fun x => parent h x) x n /\ n <= hnext h.
Definition downs (x : nat) : list nat := (children h x ++ match content h x with Some f => [f] | None => [] end)%list.
Definition nonempty (s : str) : bool := match s with [] => false | _ => true end.
Lemma join_app_ne sep a b : a <> [] -> b <> [] -> join sep (a ++ b) = (join sep a ++ sep ++ join sep b)%list.
Proof.
  intros Ha Hb. induction a as [|x a IH]; [contradiction|]. destruct a as [|y a].
  - cbn [app]. destruct b as [|z b]; [contradiction|]. reflexivity.
  - cbn [app]. change (join sep (x :: y :: a ++ b)) with (x ++ sep ++ join sep (y :: a ++ b))%list. change (y :: a ++ b)%list with ((y :: a) ++ b)%list. rewrite IH by discriminate.
    change (join sep (x :: y :: a)) with (x ++ sep ++ join sep (y :: a))%list. rewrite <- !app_assoc. reflexivity.
Qed.
Lemma join_nil sep l : Forall (fun s => s <> []) l -> (join sep l = [] <-> l = []).
Proof.
  intros H. destruct H as [|s l Hs Hl]; [cbn; tauto|]. split; [|discriminate]. destruct l as [|t l]; cbn [join]; intros E; [contradiction|]. destruct s; [contradiction|discriminate E].
Qed.
Lemma join_nested sep ls : Forall (Forall (fun s : str => s <> [])) ls ->
  join sep (filter nonempty (map (join sep) ls)) = join sep (List.concat ls).
Proof.
  induction ls as [|l ls IH]; intros H; [reflexivity|]. inversion H as [|? ? Hl Hls]; subst. specialize (IH Hls). cbn [map filter List.concat].
  destruct l as [|s l]; [exact IH|].
  assert (NE : join sep (s :: l) <> []) by (intros Q; apply join_nil in Q; [discriminate Q|exact Hl]).
  assert (NB : nonempty (join sep (s :: l)) = true) by (destruct (join sep (s :: l)); [contradiction|reflexivity]). rewrite NB.
  assert (Hc : Forall (fun s : str => s <> []) (List.concat ls)).
  { apply Forall_forall. intros t Ht. apply in_concat in Ht. destruct Ht as [l' [H1 H2]]. rewrite Forall_forall in Hls. specialize (Hls _ H1). rewrite Forall_forall in Hls. auto. }
  destruct (List.concat ls) as [|c cs] eqn:Ec.
  - rewrite app_nil_r. assert (filter nonempty (map (join sep) ls) = []) as ->; [|reflexivity].
    destruct (filter nonempty (map (join sep) ls)) as [|t ts] eqn:Ef; [reflexivity|]. exfalso.
    assert (I : In t (filter nonempty (map (join sep) ls))) by (rewrite Ef; left; reflexivity). apply filter_In in I. destruct I as [I1 I2].
    cbn [join] in IH. destruct ts; [subst t; discriminate I2|]. destruct t; [discriminate I2|discriminate IH].
  - rewrite join_app_ne by discriminate. rewrite <- IH.
    destruct (filter nonempty (map (join sep) ls)) as [|t ts]; [|reflexivity]. exfalso. symmetry in IH. change (join sep (c :: cs) = []) in IH. apply join_nil in IH; [discriminate IH|exact Hc].
Qed.
Lemma text_content_spec fuel : forall x n, depth (fun x => parent h x) x n -> hnext h < n + fuel ->
  exists l, texts h x l /\ Forall (fun s => s <> []) l /\ text_content h fuel x = join [32%N] l.
Proof.
  induction fuel as [|fuel IH]; intros x n D L.
  - exfalso. destruct (DB x) as [m [D' L']]. assert (n = m) by (eapply depth_fun; eauto). lia.
  - cbn [text_content]. unfold has_name. destruct (str_eqb (name_of h x) (u "#text")) eqn:Nt.
    + apply str_eqb_iff in Nt. remember (match data (cell_at h x) with DStr s => strip s | _ => [] end) as s eqn:Es. exists (match s with [] => [] | _ => [s] end).
      split; [apply texts_text; [exact Nt|exact Es]|]. destruct s as [|c s]; (split; [|symmetry; exact Es]); [constructor|constructor; [discriminate|constructor]].
    + assert (Nt' : node_name h x <> u "#text") by (intros Q; apply str_eqb_iff in Q; unfold node_name in Q; unfold name_of in Nt; congruence).
      assert (K : forall y, In y (downs x) -> exists l, texts h y l /\ Forall (fun s => s <> []) l /\ text_content h fuel y = join [32%N] l).
      { intros y Hy. assert (P : parent h y = Some x).
        { apply in_app_or in Hy. destruct Hy as [Hy | Hy]; [apply (child_has_parent h F); exact Hy|]. destruct (content h x) as [f|] eqn:C; [|destruct Hy].
          destruct Hy as [<- | []]. apply (content_has_parent h FF x f C). }
        apply (IH y (S n)); [econstructor; eauto|lia]. }
      assert (K2 : exists ls, Forall2 (texts h) (downs x) ls /\ Forall (Forall (fun s : str => s <> [])) ls /\ map (text_content h fuel) (downs x) = map (join [32%N]) ls).
      { clear - K. induction (downs x) as [|y l IH]; [exists []; repeat constructor|]. destruct (K y (or_introl eq_refl)) as [t [T1 [T2 T3]]].
        destruct IH as [ls [L1 [L2 L3]]]; [intros z Hz; apply K; right; exact Hz|]. exists (t :: ls). cbn [map]. rewrite T3, L3. repeat constructor; assumption. }
      destruct K2 as [ls [L1 [L2 L3]]]. exists (List.concat ls). split; [apply texts_node; [exact Nt'|exact L1]|]. split.
      * apply Forall_forall. intros t Ht. apply in_concat in Ht. destruct Ht as [l' [H1 H2]]. rewrite Forall_forall in L2. specialize (L2 _ H1). rewrite Forall_forall in L2. auto.
      * change (kidl h x ++ match tcon (cell_at h x) with Some f => [f] | None => [] end)%list with (downs x). rewrite L3. apply (join_nested [32%N] ls L2).
Qed.
Lemma texts_fun x l : texts h x l -> forall l', texts h x l' -> l = l'.
Proof.
  destruct (DB x) as [n [D _]].
  assert (G : forall k x n, depth (fun x => parent h x) x n -> hnext h < n + k -> forall l l', texts h x l -> texts h x l' -> l = l').
  { clear - F FF DB. induction k as [|k IH]; intros x n D L l l' H H'.
    - exfalso. destruct (DB x) as [m [D' L']]. assert (n = m) by (eapply depth_fun; eauto). lia.
    - inversion H as [y s Q1 Q2 | y ls Q1 Q2]; subst; inversion H' as [y' s' Q1' Q2' | y' ls' Q1' Q2']; subst; try contradiction; [reflexivity|]. f_equal.
      assert (K : forall y, In y (children h x ++ match content h x with Some f => [f] | None => [] end)%list -> forall l l', texts h y l -> texts h y l' -> l = l').
      { intros y Hy. assert (P : parent h y = Some x).
        { apply in_app_or in Hy. destruct Hy as [Hy | Hy]; [apply (child_has_parent h F); exact Hy|]. destruct (content h x) as [f|] eqn:C; [|destruct Hy].
          destruct Hy as [<- | []]. apply (content_has_parent h FF x f C). }
        apply (IH y (S n)); [econstructor; eauto|lia]. }
      clear - K Q2 Q2'. revert ls ls' Q2 Q2'. induction (children h x ++ match content h x with Some f => [f] | None => [] end)%list as [|y l IH]; intros ls ls' H H'; inversion H; subst; inversion H'; subst; [reflexivity|].
      f_equal; [apply (K y); [left; reflexivity|assumption|assumption]|]. apply IH; [intros z Hz; apply K; right; exact Hz|assumption|assumption]. }
  intros H l' H'. eapply (G (S (hnext h))); eauto. lia.
Qed.
Lemma contains_text x needle : contains needle (text_content h (S (hnext h)) x) = true <-> exists s, text_of h x s /\ substring needle s.
Proof.
  destruct (DB x) as [n [D _]]. destruct (text_content_spec (S (hnext h)) x n D ltac:(lia)) as [l [T1 [_ ->]]]. rewrite contains_spec. split.
  - intros H. exists (join [32%N] l). split; [exists l; auto|exact H].
  - intros [s [[l' [T2 ->]] H]]. rewrite (texts_fun x l T1 l' T2). exact H.
Qed.
End S.
