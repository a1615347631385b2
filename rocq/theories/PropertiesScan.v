(* C39, C42: where comments and raw text end, against the tokenizer of the standard (HtmlTokSpec.v).
   [newlines] is the standard's preprocessing of line ends; [run sc O last st w] are the tokens of w from the state st on. *)
From Coq Require Import Lia ZifyBool ZifyN ZifyNat.
From Verif Require Import Str StrFacts HtmlCharRefSpec HtmlTokSpec TokFacts RawTextSpec EntitiesModel EntitiesProofs EntExact RefsFacts ScanModel RawElemModel ScanComProofs ScanRawProofs ScanScriptProofs ScanFirst ScanScriptFind ScanRawFinal ScanRcdata.
From Verif Require ScanComFinal.
Open Scope list_scope. Open Scope N_scope.

(* ---------- C39 ---------- *)
(* what the scanner does not do as the standard does: a comment that starts with !>, one with an odd number (3 or more) of - before !>,
   and an unfinished one that ends with --! *)
Definition odd_bang (s : str) : Prop := exists a k b, s = a ++ repeat 45 (3 + 2 * k) ++ 33 :: 62 :: b /\ ends [45] a = false.
Lemma odd_contains s : odd_bang s -> contains (u "---!>") s = true.
Proof.
  intros (a & k & b & -> & _). apply contains_spec. exists (a ++ repeat 45 (2 * k)), b. replace (3 + 2 * k)%nat with (2 * k + 3)%nat by lia. rewrite repeat_app. cbn [repeat]. rewrite <- !app_assoc. reflexivity.
Qed.
Lemma not_odd s : contains (u "---!>") s = false -> ~ odd_bang s.
Proof. intros H O1. apply odd_contains in O1. congruence. Qed.
Theorem C39_comment_partial sc last s : starts (u "!>") s = false -> ~ odd_bang s -> ends (u "--!") s = false ->
  run sc O last CommentStart (newlines s) =
  match comment s with
  | (data, Some rest) => TComment data :: run sc O last Data (newlines rest)
  | (data, None) => [TComment data]
  end.
Proof.
  intros H1 H2 H3. apply ScanComFinal.comment_ok; [exact H1| |exact H3]. intros a k b E. destruct (ends [45] a) eqn:Q; [reflexivity|]. exfalso. apply H2. exists a, k, b. split; assumption.
Qed.
(* each of the three is needed *)
Theorem C39_bang_first_refuted : exists s, ~ odd_bang s /\ ends (u "--!") s = false /\
  match comment s with (data, Some rest) => run true O [] CommentStart (newlines s) <> TComment data :: run true O [] Data (newlines rest) | _ => False end.
Proof.
  exists (u "!>a-->b"). split; [apply not_odd; reflexivity|]. split; [reflexivity|vm_compute; intros H; discriminate H].
Qed.
Theorem C39_three_dashes_refuted : exists s, starts (u "!>") s = false /\ ends (u "--!") s = false /\
  match comment s with (data, None) => run true O [] CommentStart (newlines s) <> [TComment data] | _ => False end.
Proof. exists (u " a ---!><b>"). split; [reflexivity|]. split; [reflexivity|]. vm_compute. intros H; discriminate H. Qed.
Theorem C39_unfinished_refuted : exists s, starts (u "!>") s = false /\ ~ odd_bang s /\
  match comment s with (data, None) => run true O [] CommentStart (newlines s) <> [TComment data] | _ => False end.
Proof.
  exists (u "a--!"). split; [reflexivity|]. split; [apply not_odd; reflexivity|vm_compute; intros H; discriminate H].
Qed.
Example C39_demo : comment (u " a -- b --- c --!d -->x") = (u " a -- b --- c --!d ", Some (u "x"))
  /\ comment (u "->x") = ([], Some (u "x")) /\ comment (u "a--!>x") = (u "a", Some (u "x")) /\ comment (u "a-") = (u "a", None)
  /\ comment (97 :: 0 :: 13 :: 10 :: 13 :: u "----->x") = (97 :: 65533 :: 10 :: 10 :: u "---", Some (u "x")).
Proof. vm_compute. repeat split. Qed.
Example C39_demo_ok : let s := u " a -- b --- c --!d --> x" in starts (u "!>") s = false /\ ~ odd_bang s /\ ends (u "--!") s = false.
Proof.
  split; [reflexivity|]. split; [apply not_odd; reflexivity|reflexivity].
Qed.

(* ---------- C42 ---------- *)
(* the text begins with p, in any case of the ASCII letters, and the character that ends the name of a tag follows *)
Definition tag_at (p s : str) : Prop := exists t c r, s = t ++ c :: r /\ alow t = p /\ ends_name c = true.
Lemma tag_at_iff p s : tag_at p s <-> at_tag p s = true.
Proof.
  split.
  - intros (t & c & r & -> & <- & H). unfold at_tag. rewrite strip_of; rewrite ?map_length; unfold alow; rewrite ?map_length.
    + rewrite skipn_app, skipn_all, Nat.sub_diag. exact H.
    + rewrite app_length. lia.
    + rewrite firstn_app, Nat.sub_diag, firstn_all, app_nil_r. reflexivity.
  - intros H. unfold at_tag in H. destruct (strip_ci p s) as [r|] eqn:E; [|discriminate H]. destruct (strip_some _ _ _ E) as (L & R & A). destruct r as [|c r]; [discriminate H|]. exists (firstn (List.length p) s), c, r. split; [rewrite R; symmetry; apply firstn_skipn|]. split; assumption.
Qed.
(* between the name of an end tag and the next > there is no quotation mark *)
Definition plain_end_tags (name s : str) : Prop := forall j, tag_at (60 :: 47 :: name) (skipn j s) ->
  forall c, In c (take_while (fun x => negb (x =? 62)) (skipn (j + 2 + List.length name) s)) -> c <> 34 /\ c <> 39.
(* the text is the one of the standard, and the parser goes on where the standard does: the end tag has been left out by the tokenizer
   only when the input ends inside it *)
Definition agrees (sc : bool) (name : str) (tokens : list token) (text rest : str) : Prop :=
  exists e, (e = [TEnd name] \/ e = [] /\ rest = []) /\ tokens = chars text ++ e ++ run sc O name Data (newlines rest).
Lemma agrees_end sc name s i tks text r : forallb is_lower_ascii name = true -> at_tag (60 :: 47 :: name) (skipn i s) = true -> plain_end_tags name s ->
  tks = chars text ++ run sc O name (RawEndName r name) (newlines (skipn (i + List.length (ScanRawProofs.tag name)) s)) ->
  agrees sc name tks text (skipn (tag_after s (i + List.length (ScanRawProofs.tag name))) s).
Proof.
  intros Hn A Q ->. set (t := skipn (i + List.length (ScanRawProofs.tag name)) s). assert (Hd : match t with c :: _ => ends_name c | [] => false end = true).
  { rewrite at_tag_rest in A. apply andb_true_iff in A as [_ A]. rewrite skipn_sk in A. exact A. }
  assert (Qt : no_quotes t).
  { intros c I. apply (Q i); [apply tag_at_iff; exact A|]. unfold t in I. cbn [ScanRawProofs.tag List.length] in I. replace (i + 2 + List.length name)%nat with (i + S (S (List.length name)))%nat by lia. exact I. }
  rewrite (end_run name sc Hn r t Hd Qt). unfold tag_after. fold t. destruct (find_tag_end None t) as [e|].
  - exists [TEnd name]. split; [left; reflexivity|]. unfold t. rewrite skipn_sk. replace (i + List.length (ScanRawProofs.tag name) + (e + 1))%nat with (i + List.length (ScanRawProofs.tag name) + e + 1)%nat by lia. reflexivity.
  - exists []. rewrite skipn_all. split; [right; split; reflexivity|]. reflexivity.
Qed.
Lemma agrees_eof sc name tks text : tks = chars text -> agrees sc name tks text [].
Proof. intros ->. exists []. split; [right; split; reflexivity|]. rewrite app_nil_r. reflexivity. Qed.
Lemma clean_raw_eq t : clean_raw t = map nul (newlines t).
Proof. exact (comment_data_eq t). Qed.

(* style, xmp, iframe, noembed, noframes and every other name: no hypothesis; the text is right, and the tokenizer is then inside the end tag *)
Theorem C42_rawtext_text sc name s : forallb is_lower_ascii name = true -> name <> [] ->
  run sc O name Rawtext (newlines s) =
  match find_rawtext_end_tag name s with
  | None => chars (map nul (newlines s))
  | Some (close, _) => chars (map nul (newlines (firstn close s))) ++ run sc O name (RawEndName RRawtext name) (newlines (skipn (close + 2 + List.length name) s))
  end.
Proof.
  intros Hn Ne. rewrite (rawtext_run name sc Hn Ne), (rawtext_first name Hn). unfold found. destruct (lk name MRaw O s) as [i|]; [|reflexivity]. cbn [ScanRawProofs.tag List.length]. replace (i + 2 + List.length name)%nat with (i + S (S (List.length name)))%nat by lia. reflexivity.
Qed.
Theorem C42_rawtext sc name s : forallb is_lower_ascii name = true -> name <> [] -> name <> u "script" -> plain_end_tags name s ->
  agrees sc name (run sc O name Rawtext (newlines s)) (fst (raw_element name s)) (snd (raw_element name s)).
Proof.
  intros Hn Ne Ns Q. rewrite (rawtext_run name sc Hn Ne). unfold raw_element, until_end_tag. replace (str_eqb name (u "script")) with false by (symmetry; destruct (str_eqb name (u "script")) eqn:E; [apply str_eqb_eq in E; contradiction|reflexivity]).
  rewrite (rawtext_first name Hn). unfold found. destruct (lk name MRaw O s) as [i|] eqn:E; cbn [fst snd]; rewrite clean_raw_eq.
  - apply (agrees_end sc name s i _ _ RRawtext Hn); [apply (lk_raw_spec name Hn s i E)|exact Q|reflexivity].
  - apply agrees_eof. reflexivity.
Qed.
(* title, textarea.  refs_ok: as in C27 *)
Theorem C42_rcdata sc name s : forallb is_lower_ascii name = true -> name <> [] -> name <> u "script" -> plain_end_tags name s -> refs_ok false s ->
  exists text, fst (rcdata_element name s) = Some text /\ agrees sc name (run sc O name Rcdata (newlines s)) text (snd (rcdata_element name s)).
Proof.
  intros Hn Ne Ns Q D. rewrite (rcdata_run name sc Hn Ne). unfold rcdata_element, until_end_tag. replace (str_eqb name (u "script")) with false by (symmetry; destruct (str_eqb name (u "script")) eqn:E; [apply str_eqb_eq in E; contradiction|reflexivity]).
  assert (Dec : forall t r, s = t ++ r -> (if mem 38 (clean_raw t) then decode_entities_in_text (clean_raw t) false else Some (clean_raw t)) = Some (rc (newlines t))).
  { intros t r Es. rewrite clean_raw_eq. assert (Ok : refs_ok false (map nul (newlines t))) by (apply refs_nul, refs_newlines, (refs_cut false t r); rewrite <- Es; exact D).
    assert (E : decode_entities_in_text (map nul (newlines t)) false = Some (rc (newlines t))) by (apply c27_exact; exact Ok).
    destruct (mem 38 (map nul (newlines t))) eqn:M; [exact E|]. rewrite <- E. symmetry. apply decode_no_amp. intros Hin. unfold mem in M. assert (existsb (N.eqb 38) (map nul (newlines t)) = true) by (apply existsb_exists; exists 38; split; [exact Hin|reflexivity]). congruence. }
  rewrite (rawtext_first name Hn). unfold found. destruct (lk name MRaw O s) as [i|] eqn:E; cbn [fst snd].
  - rewrite (Dec _ (skipn i s)) by (symmetry; apply firstn_skipn). eexists. split; [reflexivity|]. apply (agrees_end sc name s i _ _ RRcdata Hn); [apply (lk_raw_spec name Hn s i E)|exact Q|reflexivity].
  - rewrite (Dec s []) by (symmetry; apply app_nil_r). eexists. split; [reflexivity|]. apply agrees_eof. reflexivity.
Qed.
(* script.  An end tag that comes after a <!-- and then a <script tag must have neither quotes nor < nor - before its > *)
Definition plain_escapes (s : str) : Prop := forall i k j, (i < k < j)%nat ->
  starts (u "<!--") (skipn i s) = true -> tag_at (u "<script") (skipn k s) -> tag_at (u "</script") (skipn j s) ->
  forall c, In c (take_while (fun x => negb (x =? 62)) (skipn (j + 8) s)) -> c <> 34 /\ c <> 39 /\ c <> 60 /\ c <> 45.
Lemma plain_nice s : plain_escapes s -> nice MData s.
Proof. intros H i k j Q A B C. unfold plain_tail. apply (H i k j Q A); apply tag_at_iff; assumption. Qed.
Lemma script_lk sc s : run sc O (u "script") ScriptData (newlines s) =
  match lk script MData O s with
  | None => chars (map nul (newlines s))
  | Some i => chars (map nul (newlines (firstn i s))) ++ run sc O script (RawEndName RScript script) (newlines (skipn (i + 8) s))
  end.
Proof.
  pose proof (script_run sc (newlines s) (no_cr _ s (le_n _))) as R. change (u "script") with script. rewrite R. rewrite (render_newlines script sc sname_ok RScript MData s); [reflexivity|]. intros i E. exact (lk_at MData O s i E).
Qed.
Theorem C42_script_text sc s : plain_escapes s ->
  run sc O (u "script") ScriptData (newlines s) =
  match find_script_end_tag s with
  | None => chars (map nul (newlines s))
  | Some (close, _) => chars (map nul (newlines (firstn close s))) ++ run sc O (u "script") (RawEndName RScript (u "script")) (newlines (skipn (close + 8) s))
  end.
Proof.
  intros H. rewrite script_lk, (script_first s (plain_nice s H)). unfold result. destruct (lk script MData O s) as [i|]; reflexivity.
Qed.
Theorem C42_script_partial sc s : plain_escapes s -> plain_end_tags (u "script") s ->
  agrees sc (u "script") (run sc O (u "script") ScriptData (newlines s)) (fst (raw_element (u "script") s)) (snd (raw_element (u "script") s)).
Proof.
  intros H Q. rewrite script_lk. unfold raw_element, until_end_tag. cbn [str_eqb]. replace (str_eqb (u "script") (u "script")) with true by reflexivity. rewrite (script_first s (plain_nice s H)). unfold result. destruct (lk script MData O s) as [i|] eqn:E; cbn [fst snd Nat.add]; rewrite clean_raw_eq.
  - apply (agrees_end sc script s i _ _ RScript sname_ok); [exact (lk_at MData O s i E)|exact Q|reflexivity].
  - apply agrees_eof. reflexivity.
Qed.

(* what is false without the hypotheses: a quotation mark in an end tag hides its end *)
Theorem C42_quote_refuted : exists s, ~ agrees true (u "title") (run true O (u "title") Rcdata (newlines s)) (u "a") (snd (rcdata_element (u "title") s)) /\ fst (rcdata_element (u "title") s) = Some (u "a").
Proof.
  exists (u "a</title x"">b"). split; [|reflexivity]. intros (e & [-> | [-> H]] & E); vm_compute in E; [discriminate E|]. discriminate E.
Qed.
(* a --> or a <script in the end tag that ends the double escaped state is not seen *)
Theorem C42_script_refuted : exists s, plain_end_tags (u "script") s /\ ~ agrees true (u "script") (run true O (u "script") ScriptData (newlines s)) (fst (raw_element (u "script") s)) (snd (raw_element (u "script") s)).
Proof.
  exists (u "<!--<script></script --><script></script>XX"). split.
  - intros j J c I. apply tag_at_iff in J. assert (In 34 (u "<!--<script></script --><script></script>XX") \/ In 39 (u "<!--<script></script --><script></script>XX") -> False) as K by (vm_compute; intuition discriminate).
    assert (In c (u "<!--<script></script --><script></script>XX")).
    { apply LinkProofs.take_while_incl in I. rewrite <- (firstn_skipn (j + 2 + List.length (u "script"))). apply in_or_app. right. exact I. }
    split; intros ->; apply K; [left|right]; assumption.
  - intros (e & [-> | [-> H]] & E); [vm_compute in E; discriminate E|vm_compute in E; discriminate E].
Qed.

(* the hypotheses are met *)
Example C42_demo : raw_element (u "style") (u "a</Style-x></STYLE x=1>b") = (u "a</Style-x>", u "b")
  /\ rcdata_element (u "title") (u "a&lt;&notit;</title x") = (Some (u "a<" ++ [172] ++ u "it;"), [])
  /\ raw_element (u "script") (u "<!--<script>x</script>y--></script>z") = (u "<!--<script>x</script>y-->", u "z").
Proof. vm_compute. repeat split. Qed.
Lemma no_quote_plain name s : ~ In 34 s -> ~ In 39 s -> plain_end_tags name s.
Proof.
  intros A B j _ c I. apply LinkProofs.take_while_incl in I. assert (In c s) by (rewrite <- (firstn_skipn (j + 2 + List.length name)); apply in_or_app; right; exact I). split; intros ->; contradiction.
Qed.
Example C42_demo_ok : plain_end_tags (u "style") (u "a</Style-x></STYLE x=1>b") /\ plain_end_tags (u "script") (u "<!--<script>x</script>y--></script>z").
Proof. split; apply no_quote_plain; vm_compute; intuition discriminate. Qed.
Fixpoint check (n : nat) (p : nat -> bool) : bool := match n with O => true | S n => p n && check n p end.
Lemma check_ok p : forall n j, check n p = true -> (j < n)%nat -> p j = true.
Proof. induction n as [|n IH]; intros j H L; [lia|]. cbn [check] in H. apply andb_true_iff in H as [H1 H2]. destruct (Nat.eq_dec j n) as [->|]; [exact H1|apply IH; [exact H2|lia]]. Qed.
Example C42_script_ok : plain_escapes (u "<!--<script>x</script>y--></script>z").
Proof.
  intros i k j _ _ _ J c I. apply tag_at_iff in J.
  set (s := u "<!--<script>x</script>y--></script>z") in *.
  assert (K : check 37 (fun j => negb (at_tag (u "</script") (skipn j s)) || forallb (fun c => negb (mem c [34; 39; 60; 45])) (take_while (fun x => negb (x =? 62)) (skipn (j + 8) s))) = true) by (vm_compute; reflexivity).
  destruct (Nat.lt_ge_cases j 37) as [Lj|Lj].
  - pose proof (check_ok _ _ j K Lj) as Q. cbn beta in Q. rewrite J in Q. cbn [negb orb] in Q. rewrite forallb_forall in Q. specialize (Q c I). repeat split; intros ->; discriminate Q.
  - rewrite skipn_all2 in J by (change (List.length s) with 36%nat; lia). discriminate J.
Qed.

Print Assumptions C39_comment_partial.
Print Assumptions C42_rawtext_text.
Print Assumptions C42_rawtext.
Print Assumptions C42_rcdata.
Print Assumptions C42_script_text.
Print Assumptions C42_script_partial.
Print Assumptions C42_script_refuted.
