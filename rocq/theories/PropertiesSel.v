(* C30-C33: selectors. *)
From Verif Require Import Str StrFacts SerializerModel SanModel SanFacts DomModel DomSpec DomViewProofs DomProofs DomInvProofs DomFinal PropertiesDom UrlListProofs
  SelModel SelSpec SelNodeProofs SelSibProofs SelMatchProofs SelTopProofs SelQueryProofs SelParseProofs SelWalkProofs SelFinal SelTextSpec SelTextProofs SelEraseProofs SelApiProofs SelNthProofs.
From Coq Require Import Lia ZArith ZifyBool ZifyN ZifyNat.
Open Scope nat_scope.

(* In all statements: [h] is any heap that calls of the DOM API can produce; [over k] says whether the work budget is exhausted at tick [k]
   (then the call raises, which is the value inr EBudget); [text_of_selector t d s] says that [t] is a text of the selector [s]. *)

(* ---- parsing ---- *)
(* Every text of the grammar is parsed to the selector it denotes (compound numbers aside), and those numbers do not matter. *)
Theorem C30_parse : forall t d s, text_of_selector t d s -> exists s', parse_selector default_limits t = inl s' /\ erase_selector s' = s.
Proof. exact text_sel. Qed.
Theorem C30_numbers_do_not_matter : forall h s x, sat h (erase_selector s) x <-> sat h s x.
Proof. exact sat_erase. Qed.

(* ---- C30: soundness ---- *)
(* Partial: :not() with combinators inside is excluded, and so is a part left of a combinator that consists only of :not(), :contains(),
   :empty, :root (it could be satisfied by the document node); both are refuted below. *)
Theorem C30_matches_sound_partial : forall h over t d s x, reached_full h -> text_of_selector t d s -> only_simple_nots s -> left_parts_anchored s -> is_element h x ->
  matches h over x t = inl true -> sat h s x.
Proof. intros h over t d s x RF. apply (matches_sound h RF). Qed.
Theorem C30_query_sound_partial : forall h over root ds t d s l, reached_full h -> root < hnext h -> doc_order h root (root :: ds) ->
  text_of_selector t d s -> only_simple_nots s -> left_parts_anchored s -> no_comment s ->
  query (S (hnext h)) h over root t = inl l -> forall x, In x l -> In x ds /\ is_element h x /\ sat h s x.
Proof. intros h over root ds t d s l RF R D T N A C Q. exact (proj1 (selector_query h RF over root ds t d s l R D T N A C Q)). Qed.

(* ---- C31: completeness ---- *)
(* Partial: [nearest_ok] excludes selectors where the nearest candidate for a descendant or sibling combinator may be the wrong one. *)
Theorem C31_matches_complete_partial : forall h over t d s x b, reached_full h -> text_of_selector t d s -> only_simple_nots s -> left_parts_anchored s -> nearest_ok s -> is_element h x ->
  matches h over x t = inl b -> (b = true <-> sat h s x).
Proof. intros h over t d s x b RF. apply (matches_exact h RF). Qed.
(* For query() also [descendants_apart]. *)
Theorem C31_query_complete_partial : forall h over root ds t d s l, reached_full h -> root < hnext h -> doc_order h root (root :: ds) ->
  text_of_selector t d s -> only_simple_nots s -> left_parts_anchored s -> no_comment s -> nearest_ok s -> descendants_apart h s ->
  query (S (hnext h)) h over root t = inl l -> forall x, In x l <-> In x ds /\ is_element h x /\ sat h s x.
Proof.
  intros h over root ds t d s l RF R D T N A C NO DA Q x. destruct (selector_query h RF over root ds t d s l R D T N A C Q) as [H1 H2]. split; [apply H1|]. intros [X1 [X2 X3]]. apply (H2 NO DA); assumption.
Qed.

(* ---- C32: An+B ---- *)
(* the arithmetic test, for all integers *)
Theorem C32_nth_arithmetic : forall i a b, matches_nth i a b = true <-> exists n, (0 <= n)%Z /\ i = (a * n + b)%Z.
Proof. exact matches_nth_spec. Qed.
(* the notation *)
Theorem C32_nth_notation : forall e a b, nth_notation e a b -> parse_nth (Some e) = Some (a, b).
Proof. exact nth_notation_ok. Qed.
(* both together, from the text of the selector: [n] is nth-child or nth-of-type, in any case *)
Theorem C32_nth_selectors : forall h over x n e a b r want, reached_full h -> is_element h x -> ident n -> nth_notation e a b -> (N.of_nat (List.length n + List.length e) < 8000)%N ->
  (lower n = u "nth-child" /\ want = any) \/ (lower n = u "nth-of-type" /\ want = same_name h x) ->
  matches h over x (u ":" ++ n ++ u "(" ++ e ++ u ")") = inl r -> (r = true <-> exists i, nth_among h want x i /\ exists k, (0 <= k)%Z /\ i = (a * k + b)%Z).
Proof. exact nth_matches. Qed.

(* ---- C33: queries ---- *)
(* every node has its document order below it *)
Theorem C33_document_order : forall h root, reached_full h -> exists ds, doc_order h root (root :: ds) /\ NoDup (root :: ds).
Proof. intros h root RF. destruct (order_exists h RF root) as [l D]. destruct (doc_root h root l D) as [ds ->]. exists ds. split; [exact D|]. exact (order_nodup h RF root _ D). Qed.
(* any result, for any selector text: a part of the nodes below the root, in document order, none twice *)
Theorem C33_query_in_document_order : forall h over root ds t l, reached_full h -> root < hnext h -> doc_order h root (root :: ds) ->
  query (S (hnext h)) h over root t = inl l -> sublist l ds /\ NoDup l.
Proof. intros h over root ds t l RF. apply (query_order h RF). Qed.
(* both calls end (the fuel of the model is never exhausted) *)
Theorem C33_query_terminates : forall h over root t, reached_full h -> root < hnext h -> query (S (hnext h)) h over root t <> inr EFuel.
Proof. intros h over root t RF. apply (query_ends h RF). Qed.
Theorem C33_matches_terminates : forall h over x t, reached_full h -> matches h over x t <> inr EFuel.
Proof. intros h over x t RF. apply (matches_ends h RF). Qed.
(* a tag name: the fast path gives exactly the elements of that name below the root ... *)
Theorem C33_tag_query : forall h over root ds t l, reached_full h -> root < hnext h -> doc_order h root (root :: ds) -> tag_name t -> strip t = t ->
  query (S (hnext h)) h over root t = inl l -> forall x, In x l <-> In x ds /\ is_element h x /\ lower (node_name h x) = lower t.
Proof.
  intros h over root ds t l RF R D T ST. apply (tag_query h RF over root ds t l R D); [|exact ST]. destruct (tag_start t T) as [c [t' [-> Hc]]]. destruct T as [T _]. destruct (ident_names _ T) as [_ T2].
  cbn [is_simple_tag]. rewrite Hc. cbn [forallb] in T2. apply andb_true_iff in T2. destruct T2 as [_ T2]. cbn [andb]. rewrite forallb_forall in T2 |- *. intros d Hd. rewrite <- name_char_iff. auto.
Qed.
(* ... the same as the general matcher *)
Theorem C33_tag_query_agrees : forall h over over' root ds t l x b, reached_full h -> root < hnext h -> doc_order h root (root :: ds) -> tag_name t -> strip t = t ->
  query (S (hnext h)) h over root t = inl l -> In x ds -> is_element h x -> matches h over' x t = inl b -> (b = true <-> In x l).
Proof.
  intros h over over' root ds t l x b RF R D T ST Q Hx He M. rewrite (C33_tag_query h over root ds t l RF R D T ST Q x).
  assert (L : (N.of_nat (List.length t) <= max_length default_limits)%N) by (destruct (query_cases h RF over root ds t l R D Q) as [hit [st [_ [_ [_ L]]]]]; rewrite ST in L; exact L).
  assert (TX : text_of_selector t 0 [[(None, Compound 0 [STag (lower t)])]]).
  { split; [|split; [exact ST|split; [exact L|cbn; lia]]]. rewrite <- (app_nil_r t) at 2. apply sx; [|constructor|split; [constructor; [intros []|constructor]|cbn; lia]].
    rewrite <- (app_nil_r t) at 2. apply cx; [|constructor|cbn; lia]. rewrite <- (app_nil_r t) at 2. apply ct_tag; [exact T|constructor|split; [constructor; [intros []|constructor]|cbn; lia]]. }
  eapply (matches_exact h RF over' t 0 [[(None, Compound 0 [STag (lower t)])]] x b TX) in M; [|intros c [<- | []]; reflexivity|intros c [<- | []] p []|intros c [<- | []]; reflexivity|exact He]. rewrite M.
  unfold sat, sat_complex. split.
  - intros [c [[<- | []] S]]. cbn [ends_at] in S. destruct S as [[_ S] _]. specialize (S _ (or_introl eq_refl)). cbn [sat_simple] in S. split; [exact Hx|]. split; [exact He|]. rewrite S. apply SanIdemProofs.lower_idem.
  - intros [_ [_ S]]. eexists. split; [left; reflexivity|]. cbn [ends_at]. split; [|exact I]. split; [exact He|]. cbn [simples]. intros y [<- | []]. cbn [sat_simple]. rewrite S. symmetry. apply SanIdemProofs.lower_idem.
Qed.

(* ================================================================ a document for the examples *)
(* 0 document, 1 section, 2 div, 3 div, 4 span; 5 doctype; 6 ul with the li 7 and 8 *)
Definition never (_ : nat) : bool := false.
Definition el (n : string) (c : option string) : op := OpElement (u n) (match c with Some c => Some [(u "class", Some (u c))] | None => None end) (Some (u "html")).
Definition page : list op :=
  [OpDocument; el "section" None; el "div" None; el "div" (Some "a b"%string); el "span" None; OpNode (u "!doctype") None DNone None; el "ul" None; el "li" None; el "li" (Some "x"%string);
   OpAppend 0 5; OpAppend 0 1; OpAppend 1 2; OpAppend 2 3; OpAppend 3 4; OpAppend 1 6; OpAppend 6 7; OpAppend 6 8].
Definition hp : heap := run_all empty_heap page.
Example hp_reached : reached_full hp. Proof. apply run_all_full; [constructor|vm_compute; reflexivity]. Qed.
Example hp_size : hnext hp = 9. Proof. vm_compute. reflexivity. Qed.
Ltac node x := apply (doc_order_node hp x); vm_compute inner.
Example hp_order : doc_order hp 0 [0; 5; 1; 2; 3; 4; 6; 7; 8].
Proof.
  assert (L : forall x, inner hp x = [] -> doc_order hp x [x]) by (intros x E; apply (doc_order_node hp x []); rewrite E; constructor).
  assert (D3 : doc_order hp 3 [3; 4]) by (apply (doc_order_node hp 3 [[4]]); change (inner hp 3) with [4]; repeat constructor; apply L; reflexivity).
  assert (D2 : doc_order hp 2 [2; 3; 4]) by (apply (doc_order_node hp 2 [[3; 4]]); change (inner hp 2) with [3]; repeat constructor; exact D3).
  assert (D6 : doc_order hp 6 [6; 7; 8]) by (apply (doc_order_node hp 6 [[7]; [8]]); change (inner hp 6) with [7; 8]; repeat constructor; apply L; reflexivity).
  assert (D1 : doc_order hp 1 [1; 2; 3; 4; 6; 7; 8]) by (apply (doc_order_node hp 1 [[2; 3; 4]; [6; 7; 8]]); change (inner hp 1) with [2; 6]; repeat constructor; assumption).
  apply (doc_order_node hp 0 [[5]; [1; 2; 3; 4; 6; 7; 8]]); change (inner hp 0) with [5; 1]; repeat constructor; [apply L; reflexivity|exact D1].
Qed.
(* writing selector texts down *)
Lemma tag_ok n : match n with c :: _ => negb (is_digit_ascii c) | [] => false end && forallb ident_char n = true -> tag_name n.
Proof. destruct n as [|c n]; [discriminate|]. intros H. apply andb_true_iff in H. destruct H as [H1 H2]. split; [split; [discriminate|exact H2]|apply negb_true_iff; exact H1]. Qed.
Lemma tagp d n : tag_name n -> compound_text d [STag (lower n)] n.
Proof. intros H. rewrite <- (app_nil_r n) at 2. apply ct_tag; [exact H|constructor|split; [constructor; [intros []|constructor]|cbn; lia]]. Qed.
Ltac tg := apply tagp; apply tag_ok; vm_compute; reflexivity.
Definition T (n : string) : compound := Compound 0 [STag (lower (u n))].
(* section > div span *)
Definition sds : selector := [[(None, T "section"); (Some Child, T "div"); (Some Desc, T "span")]].
Example sds_text : selector_text 0 sds (u "section > div span").
Proof.
  refine (sx 0 [(None, T "section"); (Some Child, T "div"); (Some Desc, T "span")] (u "section > div span") [] [] _ (rt_nil 0) _); [|split; [constructor; [intros []|constructor]|cbn; lia]].
  refine (cx 0 _ (u "section") _ (u " > div span") _ _ _); [tg| |cbn; lia].
  refine (tt_cons 0 Child (u " > ") _ (u "div") _ (u " span") (cbt_child (u " ") (u " ") eq_refl eq_refl) _ _); [tg|].
  refine (tt_cons 0 Desc (u " ") _ (u "span") _ [] (cbt_desc (u " ") eq_refl _) _ (tt_nil 0)); [discriminate|tg].
Qed.
Example sds_text_of : text_of_selector (u "section > div span") 0 sds.
Proof. split; [exact sds_text|]. split; [vm_compute; reflexivity|]. split; [vm_compute; discriminate|cbn; lia]. Qed.
Example sds_sat : sat hp sds 4.
Proof.
  eexists. split; [left; reflexivity|]. unfold sat_complex. cbn [ends_at]. assert (TG : forall n x, starts (u "#") (node_name hp x) = false -> lower (node_name hp x) = lower (lower n) -> sat_compound hp (Compound 0 [STag (lower n)]) x)
    by (intros n x H1 H2; split; [exact H1|]; cbn [simples]; intros y [<- | []]; exact H2).
  split; [apply TG; vm_compute; reflexivity|]. exists 2. split; [exists 3; split; [vm_compute; reflexivity|]; right with (p := 2); [vm_compute; reflexivity|left]|].
  split; [apply TG; vm_compute; reflexivity|]. exists 1. split; [vm_compute; reflexivity|]. split; [apply TG; vm_compute; reflexivity|exact I].
Qed.

(* ---- non-vacuity: ul > li.x satisfies all hypotheses, for matches and for query ---- *)
Definition ulx : selector := [[(None, T "ul"); (Some Child, Compound 0 [STag (lower (u "li")); SClass (u "x")])]].
Example ulx_text : text_of_selector (u "ul>li.x") 0 ulx.
Proof.
  split; [|split; [vm_compute; reflexivity|split; [vm_compute; discriminate|cbn; lia]]].
  refine (sx 0 [(None, T "ul"); (Some Child, Compound 0 [STag (lower (u "li")); SClass (u "x")])] (u "ul>li.x") [] [] _ (rt_nil 0) _); [|split; [constructor; [intros []|constructor]|cbn; lia]].
  refine (cx 0 _ (u "ul") _ (u ">li.x") _ _ _); [tg| |cbn; lia].
  refine (tt_cons 0 Child (u ">") _ (u "li.x") _ [] (cbt_child [] [] eq_refl eq_refl) _ (tt_nil 0)).
  refine (ct_tag 0 (u "li") [SClass (u "x")] (u ".x") _ _ _); [apply tag_ok; vm_compute; reflexivity| |split; [|cbn; lia]].
  - refine (sst_cons 0 _ (u ".x") [] [] (st_class 0 (u "x") _) (sst_nil 0)). split; [discriminate|vm_compute; reflexivity].
  - cbn [map shown]. constructor; [intros [Q | []]; discriminate Q|]. constructor; [intros []|constructor].
Qed.
Example ulx_classes : only_simple_nots ulx /\ left_parts_anchored ulx /\ no_comment ulx /\ nearest_ok ulx /\ descendants_apart hp ulx.
Proof.
  split; [intros c [<- | [<- | []]]; reflexivity|]. split; [intros c [<- | []] p [<- | []]; reflexivity|]. split; [intros c a [<- | [<- | []]]; cbn [simples T]; intros H; repeat destruct H as [H | H]; try discriminate H; destruct H|].
  split; [intros c [<- | []]; reflexivity|]. intros c [<- | []] a p q b E F. destruct a as [|? [|? [|? a]]]; cbn [app] in E; try discriminate E. injection E as _ E _. subst q. discriminate F.
Qed.
Example ulx_query : query (S (hnext hp)) hp never 0 (u "ul>li.x") = inl [8]. Proof. vm_compute. reflexivity. Qed.
Example ulx_matches : matches hp never 8 (u "ul>li.x") = inl true /\ matches hp never 7 (u "ul>li.x") = inl false /\ is_element hp 8. Proof. vm_compute. repeat split. Qed.
Example ulx_sat : sat hp ulx 8.
Proof.
  destruct ulx_classes as [H1 [H2 [H3 _]]]. apply (C30_query_sound_partial hp never 0 [5; 1; 2; 3; 4; 6; 7; 8] (u "ul>li.x") 0 ulx [8] hp_reached ltac:(rewrite hp_size; lia) hp_order ulx_text H1 H2 H3 ulx_query).
  left. reflexivity.
Qed.
Example nth_example : nth_notation (u "-2n + 7") (-2) 7 /\ nth_notation (u "odd") 2 1 /\ nth_notation (u "+4") 0 4 /\ nth_notation (u "n") 1 0.
Proof.
  split; [exact (nn_an_b (u "-") true (u "2") 1 (u "+") false 1 (u "7") (os_sign _ _ sg_minus) eq_refl sg_plus eq_refl ltac:(discriminate))|].
  split; [constructor|]. split; [exact (nn_b (u "+") false (u "4") (os_sign _ _ sg_plus) eq_refl ltac:(discriminate))|]. exact (nn_an [] false [] os_none eq_refl).
Qed.
Example nth_second : matches hp never 8 (u ":nth-child(2n)") = inl true /\ matches hp never 7 (u ":nth-child(2n)") = inl false. Proof. vm_compute. split; reflexivity. Qed.
Example tag_second : query (S (hnext hp)) hp never 1 (u "DIV") = inl [2; 3] /\ tag_name (u "DIV"). Proof. split; [vm_compute; reflexivity|]. apply tag_ok. vm_compute. reflexivity. Qed.

(* ================================================================ refuted *)
(* C31: matches() takes the nearest div and does not look further up. *)
Theorem C31_nearest_ancestor_refuted : exists h t d s x, reached_full h /\ text_of_selector t d s /\ is_element h x /\ sat h s x /\ matches h never x t = inl false.
Proof. exists hp, (u "section > div span"), 0, sds, 4. split; [exact hp_reached|]. split; [exact sds_text_of|]. split; [vm_compute; reflexivity|]. split; [exact sds_sat|vm_compute; reflexivity]. Qed.
(* C31: query() misses what matches() finds: the inner div for the selector div div (a cache entry is written for a node that was not tested). *)
Definition dd : selector := [[(None, T "div"); (Some Desc, T "div")]].
Example dd_text : text_of_selector (u "div div") 0 dd.
Proof.
  split; [|split; [vm_compute; reflexivity|split; [vm_compute; discriminate|cbn; lia]]].
  refine (sx 0 [(None, T "div"); (Some Desc, T "div")] (u "div div") [] [] _ (rt_nil 0) _); [|split; [constructor; [intros []|constructor]|cbn; lia]].
  refine (cx 0 _ (u "div") _ (u " div") _ _ _); [tg| |cbn; lia].
  refine (tt_cons 0 Desc (u " ") _ (u "div") _ [] (cbt_desc (u " ") eq_refl _) _ (tt_nil 0)); [discriminate|tg].
Qed.
Theorem C31_query_cache_refuted : exists h root ds t d s x l, reached_full h /\ root < hnext h /\ doc_order h root (root :: ds) /\ text_of_selector t d s /\ In x ds /\ is_element h x /\ sat h s x /\
  matches h never x t = inl true /\ query (S (hnext h)) h never root t = inl l /\ ~ In x l.
Proof.
  exists hp, 0, [5; 1; 2; 3; 4; 6; 7; 8], (u "div div"), 0, dd, 3, []. split; [exact hp_reached|]. split; [rewrite hp_size; lia|]. split; [exact hp_order|]. split; [exact dd_text|]. split; [cbn; tauto|].
  split; [vm_compute; reflexivity|]. split.
  - apply (C31_matches_complete_partial hp never (u "div div") 0 dd 3 true hp_reached dd_text); [intros c [<- | [<- | []]]; reflexivity|intros c [<- | []] p [<- | []]; reflexivity|intros c [<- | []]; reflexivity|vm_compute; reflexivity|vm_compute; reflexivity|reflexivity].
  - split; [vm_compute; reflexivity|]. split; [vm_compute; reflexivity|intros []].
Qed.
(* C30: inside :not() the same turns into a wrong match. *)
Definition notsds : selector := [[(None, Compound 0 [STag (lower (u "span")); SNot (Some (u "section > div span")) (Some sds)])]].
Theorem C30_not_refuted : exists h t d s x, reached_full h /\ text_of_selector t d s /\ is_element h x /\ ~ sat h s x /\ matches h never x t = inl true.
Proof.
  exists hp, (u "span:not(section > div span)"), 1, notsds, 4. split; [exact hp_reached|]. split; [|split; [vm_compute; reflexivity|split; [|vm_compute; reflexivity]]].
  - split; [|split; [vm_compute; reflexivity|split; [vm_compute; discriminate|cbn; lia]]].
    refine (sx 1 [(None, Compound 0 [STag (lower (u "span")); SNot (Some (u "section > div span")) (Some sds)])] (u "span:not(section > div span)") [] [] _ (rt_nil 1) _); [|split; [constructor; [intros []|constructor]|cbn; lia]].
    refine (cx 1 _ (u "span:not(section > div span)") _ [] _ (tt_nil 1) _); [|cbn; lia].
    refine (ct_tag 1 (u "span") _ (u ":not(section > div span)") _ _ _); [apply tag_ok; vm_compute; reflexivity| |split; [|cbn; lia]].
    + refine (sst_cons 1 _ (u ":not(section > div span)") [] [] (st_not 0 (u "not") sds (u "section > div span") _ _ _ sds_text) (sst_nil 1)).
      * split; [discriminate|vm_compute; reflexivity].
      * vm_compute. reflexivity.
      * split; [discriminate|]. split; vm_compute; reflexivity.
    + cbn [map shown]. constructor; [intros [Q | []]; discriminate Q|]. constructor; [intros []|constructor].
  - intros [c [[<- | []] S]]. unfold sat_complex in S. cbn [ends_at] in S. destruct S as [[_ S] _]. specialize (S _ (or_intror (or_introl eq_refl))). apply (sat_not hp never) in S. exact (S sds_sat).
Qed.
(* C30: the document node passes for an element that has no class x. *)
Definition notroot : selector := [[(None, Compound 0 [SNot (Some (u ".x")) (Some [[(None, Compound 0 [SClass (u "x")])]])]); (Some Child, T "section")]].
Theorem C30_document_node_refuted : exists h t d s x, reached_full h /\ text_of_selector t d s /\ is_element h x /\ ~ sat h s x /\ matches h never x t = inl true.
Proof.
  exists hp, (u ":not(.x) > section"), 1, notroot, 1. split; [exact hp_reached|]. split; [|split; [vm_compute; reflexivity|split; [|vm_compute; reflexivity]]].
  - split; [|split; [vm_compute; reflexivity|split; [vm_compute; discriminate|cbn; lia]]].
    refine (sx 1 [(None, Compound 0 [SNot (Some (u ".x")) (Some [[(None, Compound 0 [SClass (u "x")])]])]); (Some Child, T "section")] (u ":not(.x) > section") [] [] _ (rt_nil 1) _); [|split; [constructor; [intros []|constructor]|cbn; lia]].
    refine (cx 1 _ (u ":not(.x)") _ (u " > section") _ _ _); [| |cbn; lia].
    + refine (ct_plain 1 _ (u ":not(.x)") _ _ _); [|discriminate|split; [constructor; [intros []|constructor]|cbn; lia]].
      refine (sst_cons 1 _ (u ":not(.x)") [] [] (st_not 0 (u "not") [[(None, Compound 0 [SClass (u "x")])]] (u ".x") _ _ _ _) (sst_nil 1)).
      * split; [discriminate|vm_compute; reflexivity].
      * vm_compute. reflexivity.
      * split; [discriminate|]. split; vm_compute; reflexivity.
      * refine (sx 0 [(None, Compound 0 [SClass (u "x")])] (u ".x") [] [] _ (rt_nil 0) _); [|split; [constructor; [intros []|constructor]|cbn; lia]].
        refine (cx 0 _ (u ".x") _ [] _ (tt_nil 0) _); [|cbn; lia]. refine (ct_plain 0 _ (u ".x") _ _ _); [|discriminate|split; [constructor; [intros []|constructor]|cbn; lia]].
        refine (sst_cons 0 _ (u ".x") [] [] (st_class 0 (u "x") _) (sst_nil 0)). split; [discriminate|vm_compute; reflexivity].
    + refine (tt_cons 1 Child (u " > ") _ (u "section") _ [] (cbt_child (u " ") (u " ") eq_refl eq_refl) _ (tt_nil 1)). tg.
  - intros [c [[<- | []] S]]. unfold sat_complex in S. cbn [ends_at] in S. destruct S as [_ [y [Q1 [[Q2 _] _]]]]. cbn [related] in Q1. assert (y = 0) as -> by (vm_compute in Q1; congruence). vm_compute in Q2. discriminate Q2.
Qed.
(* C30: a doctype node matches * and counts as a sibling. *)
Theorem C30_doctype_refuted : exists h x y, reached_full h /\ node_name h x = u "!doctype" /\ matches h never x (u "*") = inl true /\ children h 0 = [x; y] /\ matches h never y (u ":first-child") = inl false.
Proof. exists hp, 5, 1. split; [exact hp_reached|]. vm_compute. repeat split. Qed.

Print Assumptions C30_parse. Print Assumptions C30_numbers_do_not_matter. Print Assumptions C30_matches_sound_partial. Print Assumptions C30_query_sound_partial. Print Assumptions C31_matches_complete_partial.
Print Assumptions C31_query_complete_partial. Print Assumptions C32_nth_arithmetic. Print Assumptions C32_nth_notation. Print Assumptions C32_nth_selectors. Print Assumptions C33_document_order.
Print Assumptions C33_query_in_document_order. Print Assumptions C33_query_terminates. Print Assumptions C33_matches_terminates. Print Assumptions C33_tag_query. Print Assumptions C33_tag_query_agrees.
Print Assumptions C31_nearest_ancestor_refuted. Print Assumptions C31_query_cache_refuted. Print Assumptions C30_not_refuted. Print Assumptions C30_document_node_refuted. Print Assumptions C30_doctype_refuted.
