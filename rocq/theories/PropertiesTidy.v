(* PROPERTY C58: CollapseWhitespace *)
From Coq Require Import Lia.
From Verif Require Import ListFacts Str StrFacts SerializerModel SerTreeProofs MiscModel MiscSpec TextSpec TransModel TransSpec TransProofs TidySpec TidyProofs.
Open Scope list_scope. Open Scope N_scope.

Lemma apply_cases skip trim blocks n n' : apply_walk [TCollapse skip trim blocks] n = Some n' ->
  (exists cs cs', n = NDocument cs /\ n' = NDocument cs' /\ cpass skip trim blocks None false [] cs cs') \/
  (exists name ns attrs cs cs', n = NElem name ns attrs cs None /\ n' = NElem name ns attrs cs' None /\ cpass skip trim blocks (Some name) false [] cs cs') \/
  (exists name ns attrs cs cs' tc tc', n = NElem name ns attrs cs (Some tc) /\ n' = NElem name ns attrs cs' (Some tc') /\
     cpass skip trim blocks (Some name) false [] cs cs' /\ cpass skip trim blocks None false [] tc tc') \/
  (n' = n /\ match n with NText _ | NComment _ | NPI _ | NDoctype _ => True | _ => False end).
Proof.
  set (T := [TCollapse skip trim blocks]). unfold apply_walk. change T with (TCollapse skip trim blocks :: []) at 1.
  destruct n as [d|d|d|d|cs|name ns attrs cs tc]; cbn beta iota; try (intros H; injection H as <-; do 3 right; split; [reflexivity|exact Logic.I]).
  - destruct (walk _ T None false [] (map (pair O) cs)) as [cs'|] eqn:E; [|discriminate]. intros H. injection H as <-. left. exists cs, cs'. destruct (walk_cpass _ _ _ _ _ _ _ _ _ E) as (o & -> & C). repeat split. exact C.
  - destruct (walk _ T (Some name) false [] (map (pair O) cs)) as [cs'|] eqn:E; [|discriminate]. destruct (walk_cpass _ _ _ _ _ _ _ _ _ E) as (o & -> & C). destruct tc as [tc|].
    + destruct (walk _ T None false [] (map (pair O) tc)) as [tc'|] eqn:E2; [|discriminate]. destruct (walk_cpass _ _ _ _ _ _ _ _ _ E2) as (o2 & -> & C2). intros H. injection H as <-. do 2 right. left. repeat eexists; eassumption.
    + intros H. injection H as <-. right. left. repeat eexists. exact C.
Qed.

(* Nothing but white space of text outside the skipped elements changes, and that text has no white space left but single spaces *)
Theorem C58_shape skip trim blocks n n' : apply_walk [TCollapse skip trim blocks] n = Some n' -> tidied_root skip n n'.
Proof.
  intros H. destruct (apply_cases _ _ _ _ _ H) as [(cs & cs' & -> & -> & C)|[(name & ns & attrs & cs & cs' & -> & -> & C)|[(name & ns & attrs & cs & cs' & tc & tc' & -> & -> & C & C2)|[-> L]]]].
  - apply tr_document. exact (cpass_tidied _ _ _ _ _ _ _ _ C).
  - apply tr_element. exact (cpass_tidied _ _ _ _ _ _ _ _ C).
  - apply tr_template; [exact (cpass_tidied _ _ _ _ _ _ _ _ C)|exact (cpass_tidied _ _ _ _ _ _ _ _ C2)].
  - apply tr_leaf, L.
Qed.
Print Assumptions C58_shape.
(* The words of the shown text stay the same, paragraph by paragraph: no two are joined, none is split or lost - across inline elements too *)
Theorem C58_words skip trim blocks n n' : apply_walk [TCollapse skip trim blocks] n = Some n' -> same_words (shown_text blocks n) (shown_text blocks n').
Proof.
  intros H. apply same_words_of. destruct (apply_cases _ _ _ _ _ H) as [(cs & cs' & -> & -> & C)|[(name & ns & attrs & cs & cs' & -> & -> & C)|[(name & ns & attrs & cs & cs' & tc & tc' & -> & -> & C & C2)|[-> L]]]].
  - pose proof (cpass_words _ _ _ _ _ _ _ _ C) as E. cbn [pre rev] in E. unfold SL in E. cbn [flat_map stream app] in E. rewrite !app_nil_r in E. exact E.
  - apply S1_elem. exact (cpass_words _ _ _ _ _ _ _ _ C).
  - apply S1_elem. exact (cpass_words _ _ _ _ _ _ _ _ C).
  - reflexivity.
Qed.
Print Assumptions C58_words.
(* "it also trims leading ... whitespace at the edges of block containers": no text at the start of a block, or after a br or block in one, starts with a space *)
Theorem C58_leading skip blocks n n' m name ns attrs a d b tc : apply_walk [TCollapse skip true blocks] n = Some n' ->
  (m = n' \/ exists c, In c (all_children n') /\ visible skip m c) ->
  m = NElem name ns attrs (a ++ NText d :: b) tc -> In (lower name) blocks -> line_start blocks a ->
  forall c t, d = c :: t -> is_html_space c = false.
Proof.
  intros H Hm Em Hb Hl c t Ed. apply in_strs_In in Hb. enough (U : unspaced d) by (rewrite Ed in U; exact U).
  destruct (apply_cases _ _ _ _ _ H) as [(cs & cs' & -> & -> & C)|[(nm & ns0 & at0 & cs & cs' & -> & -> & C)|[(nm & ns0 & at0 & cs & cs' & tc0 & tc' & -> & -> & C & C2)|[-> L]]]].
  - destruct (cpass_starts _ _ _ _ _ _ _ _ eq_refl C eq_refl) as [A _]. destruct Hm as [->|(x & I & V)]; [discriminate Em|]. exact (A x I m V _ _ _ _ _ _ _ Em Hb Hl).
  - destruct (cpass_starts _ _ _ _ _ _ _ _ eq_refl C eq_refl) as [A B]. destruct Hm as [->|(x & I & V)].
    + injection Em as -> -> -> E _. exact (B name eq_refl Hb a d b E Hl).
    + cbn [all_children] in I. rewrite app_nil_r in I. exact (A x I m V _ _ _ _ _ _ _ Em Hb Hl).
  - destruct (cpass_starts _ _ _ _ _ _ _ _ eq_refl C eq_refl) as [A B]. destruct (cpass_starts _ _ _ _ _ _ _ _ eq_refl C2 eq_refl) as [A2 _]. destruct Hm as [->|(x & I & V)].
    + injection Em as -> -> -> E _. exact (B name eq_refl Hb a d b E Hl).
    + cbn [all_children] in I. apply in_app_or in I as [I|I]; [exact (A x I m V _ _ _ _ _ _ _ Em Hb Hl)|exact (A2 x I m V _ _ _ _ _ _ _ Em Hb Hl)].
  - destruct Hm as [->|(x & I & V)]; [rewrite Em in L; destruct L|]. destruct n; try destruct L; destruct I.
Qed.
Print Assumptions C58_leading.
(* Trailing white space is not always trimmed, so a second run may change the tree again: <p>a <!--c--> </p> keeps "a " *)
Definition el (name : string) (cs : list node) : node := NElem (u name) (Some (u "html")) [] cs None.
Theorem C58_trailing_refuted : exists n n', n = NDocument [el "p" [NText (u "a "); NComment (u "c"); NText (u " ")]] /\
  apply_walk [TCollapse [] true [u "p"]] n = Some n' /\ n' = NDocument [el "p" [NText (u "a "); NComment (u "c")]] /\
  apply_walk [TCollapse [] true [u "p"]] n' = Some (NDocument [el "p" [NText (u "a"); NComment (u "c")]]).
Proof. eexists. eexists. split; [reflexivity|]. split; [vm_compute; reflexivity|]. split; [reflexivity|vm_compute; reflexivity]. Qed.
Print Assumptions C58_trailing_refuted.
(* with trim_blocks=False it is idempotent *)
Theorem C58_idempotent_partial skip blocks n n' : apply_walk [TCollapse skip false blocks] n = Some n' -> apply_walk [TCollapse skip false blocks] n' = Some n'.
Proof.
  intros H. destruct (apply_walk_total [TCollapse skip false blocks] n') as (n2 & H2). rewrite H2. f_equal.
  destruct (apply_cases _ _ _ _ _ H) as [(cs & cs' & -> & -> & C)|[(nm & ns0 & at0 & cs & cs' & -> & -> & C)|[(nm & ns0 & at0 & cs & cs' & tc0 & tc' & -> & -> & C & C2)|[-> L]]]].
  - destruct (apply_cases _ _ _ _ _ H2) as [(ds & ds' & E & -> & D)|[(? & ? & ? & ? & ? & E & _)|[(? & ? & ? & ? & ? & ? & ? & E & _)|[-> L]]]]; try discriminate E; [|destruct L].
    injection E as <-. f_equal. symmetry. exact (cpass_det _ _ _ _ _ _ _ _ (cpass_again _ _ _ _ _ _ _ _ eq_refl C) _ D).
  - destruct (apply_cases _ _ _ _ _ H2) as [(? & ? & E & _)|[(? & ? & ? & ds & ds' & E & -> & D)|[(? & ? & ? & ? & ? & ? & ? & E & _)|[-> L]]]]; try discriminate E; [|destruct L].
    injection E as <- <- <- <-. f_equal. symmetry. exact (cpass_det _ _ _ _ _ _ _ _ (cpass_again _ _ _ _ _ _ _ _ eq_refl C) _ D).
  - destruct (apply_cases _ _ _ _ _ H2) as [(? & ? & E & _)|[(? & ? & ? & ds & ds' & E & -> & D)|[(? & ? & ? & ? & ds' & ? & ts' & E & -> & D & D2)|[-> L]]]]; try discriminate E; [|destruct L].
    injection E as <- <- <- <- <-. rewrite <- (cpass_det _ _ _ _ _ _ _ _ (cpass_again _ _ _ _ _ _ _ _ eq_refl C) _ D), <- (cpass_det _ _ _ _ _ _ _ _ (cpass_again _ _ _ _ _ _ _ _ eq_refl C2) _ D2). reflexivity.
  - destruct n; try destruct L; cbn in H2; congruence.
Qed.
Print Assumptions C58_idempotent_partial.

(* ---------- cases ---------- *)
(* the example of docs/transforms.md *)
Example C58_docs : apply_walk [TCollapse [u "pre"] true [u "p"]]
    (NDocument [el "p" [NText (10 :: u "  Hello " ++ 10 :: 9 :: u " world" ++ [10])]; el "pre" [NText (u "a  b")]]) =
  Some (NDocument [el "p" [NText (u "Hello world")]; el "pre" [NText (u "a  b")]]).
Proof. vm_compute. reflexivity. Qed.
Example C58_shown : shown_text [u "p"] (NDocument [el "p" [NText (u "a "); el "b" [NText (u "c")]; el "script" [NText (u "x")]]; el "br" []; NText (u " d")]) =
  [Boundary; Words (u "a "); Words (u "c"); Boundary; Boundary; Boundary; Words (u " d")].
Proof. reflexivity. Qed.
Example C58_leading_case : line_start [u "p"] [NComment (u "x"); el "br" []; el "script" [NText (u "y")]].
Proof. right. exists [NComment (u "x")], (el "br" []), [el "script" [NText (u "y")]]. repeat split. intros x [<-|[]]. reflexivity. Qed.
