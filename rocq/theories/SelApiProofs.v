(* Proofs: matches() and query() on texts. *)
From Verif Require Import Str StrFacts SerializerModel SanModel SanFacts SanTreeProofs SanIdemProofs DomModel DomSpec DomViewProofs DomProofs DomInvProofs DomFinal SelModel SelSpec SelNodeProofs SelSibProofs SelMatchProofs SelChainProofs SelTopProofs SelQueryProofs SelParseProofs SelWalkProofs SelFinal SelTextSpec SelTextProofs SelEraseProofs.
From Coq Require Import Lia ZArith ZifyBool ZifyN ZifyNat.
Open Scope nat_scope.

Lemma text_sel t d s : text_of_selector t d s -> exists s', parse_selector default_limits t = inl s' /\ erase_selector s' = s.
Proof. intros [H1 [H2 [H3 H4]]]. apply (selector_text_parses d); assumption. Qed.
Lemma prev_fresh h ci : prev_exact h ci fresh_state. Proof. exact (proj2 (fresh_sound h ci)). Qed.

Section S.
Variable h : heap.
Hypothesis RF : reached_full h.
Variable over : nat -> bool.
Lemma matches_sound t d s x : text_of_selector t d s -> only_simple_nots s -> left_parts_anchored s -> is_element h x -> matches h over x t = inl true -> sat h s x.
Proof.
  intros T N A E M. destruct (text_sel t d s T) as [s' [P <-]]. unfold matches in M. rewrite P in M. destruct (matcher_matches h over x s' fresh_state) as [b st|e] eqn:Q; [|discriminate M]. injection M as ->.
  apply sat_erase. unfold matcher_matches in Q. eapply top_sound in Q; [destruct Q as [_ Q]; apply Q; reflexivity|exact RF|eapply parse_selector_ok; exact P|apply only_nots_erase; exact N|apply left_erase; exact A|exact E|apply fresh_sound].
Qed.
Lemma matches_exact t d s x b : text_of_selector t d s -> only_simple_nots s -> left_parts_anchored s -> nearest_ok s -> is_element h x -> matches h over x t = inl b -> (b = true <-> sat h s x).
Proof.
  intros T N A NO E M. destruct (text_sel t d s T) as [s' [P <-]]. unfold matches in M. rewrite P in M. destruct (matcher_matches h over x s' fresh_state) as [b' st|e] eqn:Q; [|discriminate M]. injection M as ->.
  rewrite sat_erase. unfold matcher_matches in Q. eapply top_exact in Q; [apply Q|exact RF|eapply parse_selector_ok; exact P|apply only_nots_erase; exact N|apply left_erase; exact A|apply nearest_erase; exact NO|exact E|apply fresh_exact|apply prev_fresh].
Qed.
Lemma elem_iff x : elem h x = true <-> is_element h x.
Proof. unfold elem, is_element, name_of, node_name. rewrite negb_true_iff. reflexivity. Qed.
Lemma allows_false s : no_comment s -> allows_non_elements s = false.
Proof.
  intros H. destruct (allows_non_elements s) eqn:Q; [|reflexivity]. exfalso. unfold allows_non_elements in Q. apply existsb_exists in Q. destruct Q as [c [Hc Q]]. apply existsb_exists in Q. destruct Q as [p [Hp Q]].
  apply existsb_exists in Q. destruct Q as [t [Ht Q]]. destruct t; try discriminate Q. cbn [simple_allows] in Q. apply str_eqb_iff in Q. subst n.
  apply (H (snd p) arg); [|exact Ht]. unfold parts. apply in_concat. exists (map snd c). split; [apply in_map; exact Hc|apply in_map; exact Hp].
Qed.
(* what a query computes: a scan of the nodes below the root with a test *)
Definition the_hit (t : str) : (nat -> M bool) + serr :=
  if is_simple_tag t then inl (tag_hit h (lower t)) else match parse_selector default_limits t with inl s => inl (selector_hit h over s) | inr e => inr e end.
Lemma query_is root ds t : root < hnext h -> doc_order h root (root :: ds) -> strip t <> [] -> (N.of_nat (List.length (strip t)) <= 8192)%N ->
  query (S (hnext h)) h over root t =
  match the_hit (strip t) with inr e => inr e | inl hit => match scan over hit ds fresh_state with MOk l _ => inl l | MErr e => inr e end end.
Proof.
  intros R D N L. unfold query, the_hit. destruct (strip t) as [|c t'] eqn:E; [contradiction|]. rewrite <- E in *. assert ((max_length default_limits <? N.of_nat (List.length (strip t)))%N = false) as -> by (apply N.ltb_ge; exact L).
  pose proof (order_len h RF over (fun _ => ret_ true) root ds R D) as LD.
  destruct (is_simple_tag (strip t)).
  - rewrite (query_scan h RF over _ (S (hnext h)) root ds fresh_state D) by lia. reflexivity.
  - destruct (parse_selector default_limits (strip t)) as [sel|e]; [|reflexivity]. rewrite (query_scan h RF over _ (S (hnext h)) root ds fresh_state D) by lia. reflexivity.
Qed.
Lemma doc_root root l : doc_order h root l -> exists ds, l = root :: ds. Proof. intros [x ls _]. eexists. reflexivity. Qed.
Lemma query_cases root ds t l : root < hnext h -> doc_order h root (root :: ds) -> query (S (hnext h)) h over root t = inl l ->
  exists hit st', the_hit (strip t) = inl hit /\ scan over hit ds fresh_state = MOk l st' /\ strip t <> [] /\ (N.of_nat (List.length (strip t)) <= 8192)%N.
Proof.
  intros R D Q. destruct (strip t) as [|c t'] eqn:E; [unfold query in Q; rewrite E in Q; discriminate Q|]. rewrite <- E.
  destruct (8192 <? N.of_nat (List.length (strip t)))%N eqn:L; [unfold query in Q; rewrite E in Q; rewrite <- E in Q; change (max_length default_limits) with 8192%N in Q; rewrite L in Q; discriminate Q|]. apply N.ltb_ge in L.
  rewrite (query_is root ds t R D ltac:(congruence) L) in Q. destruct (the_hit (strip t)) as [hit|e]; [|discriminate Q]. destruct (scan over hit ds fresh_state) as [l' st|e] eqn:S; [|discriminate Q].
  injection Q as ->. exists hit, st. repeat split; [exact S|congruence|exact L].
Qed.
Lemma query_order root ds t l : root < hnext h -> doc_order h root (root :: ds) -> query (S (hnext h)) h over root t = inl l -> sublist l ds /\ NoDup l.
Proof.
  intros R D Q. destruct (query_cases root ds t l R D Q) as [hit [st [_ [S _]]]].
  destruct (scan_picks over hit (fun _ => True) (fun _ _ => True) ltac:(auto) ltac:(auto) ds fresh_state l st I S) as [_ [H _]]. split; [exact H|]. apply (sublist_nodup l ds H).
  pose proof (order_nodup h RF root _ D) as ND. apply NoDup_cons_iff in ND. apply ND.
Qed.
Lemma query_ends root t : root < hnext h -> query (S (hnext h)) h over root t <> inr EFuel.
Proof.
  intros R Q. destruct (order_exists h RF root) as [l D]. destruct (doc_root root l D) as [ds ->].
  destruct (strip t) as [|c t'] eqn:E; [unfold query in Q; rewrite E in Q; discriminate Q|].
  destruct (8192 <? N.of_nat (List.length (strip t)))%N eqn:L; [unfold query in Q; rewrite E in Q; rewrite <- E in Q; change (max_length default_limits) with 8192%N in Q; rewrite L in Q; discriminate Q|]. apply N.ltb_ge in L.
  rewrite (query_is root ds t R D ltac:(congruence) L) in Q. unfold the_hit in Q. destruct (is_simple_tag (strip t)).
  - destruct (scan over (tag_hit h (lower (strip t))) ds fresh_state) as [l' st|e] eqn:S; [discriminate Q|]. injection Q as ->. revert S. apply nf_scan. intros x s. discriminate.
  - destruct (parse_selector default_limits (strip t)) as [s|e] eqn:P; [|injection Q as ->; exact (parse_selector_fuel _ _ P)].
    destruct (scan over (selector_hit h over s) ds fresh_state) as [l' st|e] eqn:S; [discriminate Q|]. injection Q as ->. revert S. apply nf_scan. intros x. unfold selector_hit.
    destruct (allows_non_elements s); [apply (nf_matches h RF)|]. destruct (elem h x); [apply (nf_matches h RF)|apply nf_ret].
Qed.
Lemma matches_ends x t : matches h over x t <> inr EFuel.
Proof.
  unfold matches. destruct (parse_selector default_limits t) as [s|e] eqn:P; [|intros Q; injection Q as ->; exact (parse_selector_fuel _ _ P)].
  destruct (matcher_matches h over x s fresh_state) as [b st|e] eqn:M; [discriminate|]. intros Q. injection Q as ->. exact (nf_matches h RF over _ x s fresh_state M).
Qed.
Lemma tag_hit_is t x st b st' : tag_hit h (lower t) x st = MOk b st' -> b = true <-> is_element h x /\ lower (node_name h x) = lower t.
Proof.
  intros E. injection E as <- _. rewrite andb_true_iff, elem_iff, orb_true_iff, !str_eqb_iff. unfold name_of, node_name.
  split; [intros [H1 [H2 | H2]]; split; auto; rewrite H2; apply lower_idem|intros [H1 H2]; split; auto].
Qed.
Lemma tag_query root ds t l : root < hnext h -> doc_order h root (root :: ds) -> is_simple_tag t = true -> strip t = t -> query (S (hnext h)) h over root t = inl l ->
  forall x, In x l <-> In x ds /\ is_element h x /\ lower (node_name h x) = lower t.
Proof.
  intros R D T ST Q. destruct (query_cases root ds t l R D Q) as [hit [st [Hh [S [_ _]]]]]. unfold the_hit in Hh. rewrite ST, T in Hh. injection Hh as <-.
  destruct (scan_picks over (tag_hit h (lower t)) (fun _ => True) (fun x b => b = true <-> is_element h x /\ lower (node_name h x) = lower t) ltac:(auto)) with (ds := ds) (st := fresh_state) (l := l) (st' := st) as [_ [H1 H2]]; [|exact I|exact S|].
  { intros x s b s' _ E. split; [exact I|]. exact (tag_hit_is t x s b s' E). }
  pose proof (order_nodup h RF root _ D) as ND. apply NoDup_cons_iff in ND. destruct ND as [_ ND]. specialize (H2 ND).
  assert (SI : forall z, In z l -> In z ds) by (clear - H1; intros z Hz; induction H1; [destruct Hz|destruct Hz as [-> | Hz]; [left; reflexivity|right; auto]|right; auto]).
  intros x. split.
  - intros Hx. split; [auto|]. destruct (H2 x (SI x Hx)) as [[_ H3] | [H3 _]]; [apply H3; reflexivity|contradiction].
  - intros [Hx Hy]. destruct (H2 x Hx) as [[H3 _] | [_ H3]]; [exact H3|]. apply H3 in Hy. discriminate Hy.
Qed.
Lemma selector_query root ds t d s l : root < hnext h -> doc_order h root (root :: ds) -> text_of_selector t d s -> only_simple_nots s -> left_parts_anchored s -> no_comment s ->
  query (S (hnext h)) h over root t = inl l ->
  (forall x, In x l -> In x ds /\ is_element h x /\ sat h s x) /\
  (nearest_ok s -> descendants_apart h s -> forall x, In x ds -> is_element h x -> sat h s x -> In x l).
Proof.
  intros R D T NT A NC Q. destruct (text_sel t d s T) as [s' [P Es]]. assert (ST := proj1 (proj2 T)).
  destruct (query_cases root ds t l R D Q) as [hit [st [Hh [S [NE LE]]]]]. rewrite ST in *. unfold the_hit in Hh. rewrite P in Hh.
  pose proof (order_nodup h RF root _ D) as ND. apply NoDup_cons_iff in ND. destruct ND as [_ ND].
  destruct (is_simple_tag t) eqn:TT.
  - pose proof (tag_query root ds t l R D TT ST Q) as H. assert (E : s' = [[(None, Compound 0 [STag (lower t)])]]) by (rewrite (parse_tag t TT ST) in P; [congruence|exact LE]).
    assert (SE : forall x, sat h s x <-> is_element h x /\ lower (node_name h x) = lower t).
    { intros x. rewrite <- Es, sat_erase, E. unfold sat, sat_complex, sat_compound. cbn [ends_at simples]. split.
      - intros [c [[<- | []] H0]]. cbn [ends_at] in H0. destruct H0 as [[H0 H3] _]. split; [exact H0|]. specialize (H3 _ (or_introl eq_refl)). cbn [sat_simple] in H3. rewrite H3. apply lower_idem.
      - intros [H0 H3]. eexists. split; [left; reflexivity|]. cbn [ends_at]. split; [|exact I]. split; [exact H0|]. intros y [<- | []]. cbn [sat_simple]. rewrite H3. symmetry. apply lower_idem. }
    split.
    + intros x Hx. apply H in Hx. destruct Hx as [H1 [H2 H3]]. split; [exact H1|]. split; [exact H2|]. apply SE. split; assumption.
    + intros _ _ x Hx He Hs. apply H. split; [exact Hx|]. apply SE in Hs. exact Hs.
  - injection Hh as <-. subst s. pose proof (parse_selector_ok _ _ _ P) as PO. apply only_nots_erase in NT. apply left_erase in A. apply no_comment_erase in NC.
    assert (HI : forall x, selector_hit h over s' x = if elem h x then matcher_matches h over x s' else ret_ false) by (intros x; unfold selector_hit; rewrite (allows_false s' NC); reflexivity).
    assert (SI : forall a b : list nat, sublist a b -> forall z, In z a -> In z b) by (intros a b H1 z Hz; induction H1; [destruct Hz|destruct Hz as [-> | Hz]; [left; reflexivity|right; auto]|right; auto]).
    split.
    + destruct (scan_picks over (selector_hit h over s') (fun st => caches_sound h (part_of s') st) (fun x b => b = true -> is_element h x /\ sat h s' x)) with (ds := ds) (st := fresh_state) (l := l) (st' := st) as [_ [H1 H2]].
      * intros q Hq u0 q' Tk. apply keeps_tick in Tk. assert (Tk1 := caches_anc _ _ Tk). assert (Tk2 := caches_prev _ _ Tk). destruct Hq as [Hq1 Hq2]. unfold caches_sound, anc_sound, prev_exact in *. rewrite Tk1, Tk2. split; assumption.
      * intros x q b q' Hq E. rewrite HI in E. destruct (elem h x) eqn:El; [|injection E as <- <-; split; [exact Hq|discriminate]]. apply elem_iff in El. unfold matcher_matches in E.
        eapply top_sound in E; [|exact RF|exact PO|exact NT|exact A|exact El|exact Hq]. destruct E as [E1 E2]. split; [exact E1|]. intros Hb. split; [exact El|apply E2; exact Hb].
      * apply fresh_sound.
      * exact S.
      * intros x Hx. assert (Hd := SI _ _ H1 x Hx). split; [exact Hd|]. destruct (H2 ND x Hd) as [[_ H3] | [H3 _]]; [|contradiction]. destruct (H3 eq_refl) as [H4 H5]. split; [exact H4|apply sat_erase; exact H5].
    + intros NO DA x Hx He Hs. apply nearest_erase in NO. apply apart_erase in DA. rewrite sat_erase in Hs.
      destruct (scan_picks over (selector_hit h over s') (fun st => sel_exact h (Datatypes.S (max_match_depth default_limits)) s' st /\ prev_exact h (part_of s') st) (fun x b => is_element h x -> (b = true <-> sat h s' x))) with (ds := ds) (st := fresh_state) (l := l) (st' := st) as [_ [H1 H2]].
      * intros q [Hq1 Hq2] u0 q' Tk. apply keeps_tick in Tk. assert (Tk1 := caches_anc _ _ Tk). assert (Tk2 := caches_prev _ _ Tk). split; [|unfold prev_exact in *; rewrite Tk2; exact Hq2]. clear - Hq1 Tk1. unfold sel_exact, all_exact, anc_exact_for in *. intros c Hc p Hp. rewrite Tk1. exact (Hq1 c Hc p Hp).
      * intros y q b q' [Hq1 Hq2] E. rewrite HI in E. destruct (elem h y) eqn:El; [|injection E as <- <-; split; [split; assumption|intros Q0; apply elem_iff in Q0; congruence]]. apply elem_iff in El. unfold matcher_matches in E.
        eapply top_exact in E; [|exact RF|exact PO|exact NT|exact A|exact NO|exact El|exact Hq1|exact Hq2]. destruct E as [E1 [E2 E3]]. split; [split; [apply E3; exact DA|exact E2]|intros _; exact E1].
      * split; [apply fresh_exact|apply prev_fresh].
      * exact S.
      * destruct (H2 ND x Hx) as [[H3 _] | [_ H3]]; [exact H3|]. apply (H3 He) in Hs. discriminate Hs.
Qed.
End S.
