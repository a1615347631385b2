(* C45, C46: Markdown *)
From Coq Require Import Lia.
From Verif Require Import Str SerializerModel MiscSpec PercentSpec MdModel MdSpec.
From Verif Require MdProofs MdPre MdText MdTextFinal MdGrammar MdDoc MdLink JsUrlProofs.
From Verif Require UrlModel PropertiesUrl.
Open Scope list_scope. Open Scope N_scope.
Notation unicode := JsUrlProofs.unicode.
Definition el (name : string) (cs : list node) : node := NElem (u name) None [] cs None.
Definition link (href : str) (cs : list node) : node := NElem (u "a") None [(u "href", Some href)] cs None.

(* ---------- C45 ---------- *)
(* The Markdown of a text node: on one line, without active <, &, backtick, emphasis or bracket, and displayed as the words of the text *)
Theorem C45_text : forall passthrough d ws, words d ws ->
  exists out, to_markdown passthrough (NText d) = Some out /\ displays out (join [32] ws).
Proof. exact MdTextFinal.text_output. Qed.
Print Assumptions C45_text.
(* in such a source there is no <, and every & belongs to &lt; or &amp; *)
Theorem C45_text_html : forall src txt, displays src txt -> ~ In 60 src /\ ~ In 10 src /\ ~ In 13 src /\ forall p q, src = p ++ 38 :: q -> exists q', q = u "amp;" ++ q' \/ q = u "lt;" ++ q'.
Proof.
  assert (K : forall (k c : N) (s : str), ~ In k [c] -> ~ In k s -> ~ In k (c :: s)) by (intros k c s H1 H2 [I|I]; [apply H1; left; exact I|exact (H2 I)]).
  assert (E38 : forall (k c : N), In k [60; 38; 10; 13] -> escapable c = true -> ~ In k [c]) by (intros k c I H [->|[]]; cbn in I; repeat (destruct I as [<-|I]; [discriminate H|]); destruct I).
  assert (A : forall (k c : N), In k [60; 38; 10; 13] -> ~ In c inline_active -> ~ In k [c]) by (intros k c I H [->|[]]; apply H; cbn in *; tauto).
  induction 1 as [|c s t Nc H (I1 & I2 & I3 & I4)|c s t Nc H (I1 & I2 & I3 & I4)|s t H (I1 & I2 & I3 & I4)|s t H (I1 & I2 & I3 & I4)].
  - split; [intros []|]. split; [intros []|]. split; [intros []|]. intros p q E. destruct p; discriminate E.
  - split; [apply K; [apply A; [cbn; tauto|exact Nc]|exact I1]|]. split; [apply K; [apply A; [cbn; tauto|exact Nc]|exact I2]|]. split; [apply K; [apply A; [cbn; tauto|exact Nc]|exact I3]|].
    intros p q E. destruct (MdGrammar.app_cut [c] s p q 38 E (A 38 c ltac:(cbn; tauto) Nc)) as (a' & _ & E'). exact (I4 a' q E').
  - assert (Z : forall k, In k [60; 38; 10; 13] -> ~ In k [92; c]) by (intros k I; apply K; [intros [J|[]]; subst k; cbn in I; repeat (destruct I as [I|I]; [discriminate I|]); destruct I|exact (E38 k c I Nc)]).
    assert (W : forall k, In k [60; 38; 10; 13] -> ~ In k s -> ~ In k (92 :: c :: s)) by (intros k I J [L|[L|L]]; [apply (Z k I); left; exact L|apply (Z k I); right; left; exact L|exact (J L)]).
    split; [apply W; [cbn; tauto|exact I1]|]. split; [apply W; [cbn; tauto|exact I2]|]. split; [apply W; [cbn; tauto|exact I3]|]. intros p q E. destruct (MdGrammar.app_cut [92; c] s p q 38 E (Z 38 ltac:(cbn; tauto))) as (a' & _ & E'). exact (I4 a' q E').
  - assert (W : forall k, In k [60; 10; 13] -> ~ In k s -> ~ In k (u "&amp;" ++ s)) by (intros k I J L; apply in_app_or in L as [L|L]; [cbn in I, L; repeat (destruct I as [<-|I]; [repeat (destruct L as [L|L]; [discriminate L|]); destruct L|]); destruct I|exact (J L)]).
    split; [apply W; [cbn; tauto|exact I1]|]. split; [apply W; [cbn; tauto|exact I2]|]. split; [apply W; [cbn; tauto|exact I3]|]. intros p q E. destruct p as [|c p]; [injection E as <-; exists s; left; reflexivity|]. injection E as _ E.
    destruct (MdGrammar.app_cut (u "amp;") s p q 38 E) as (a' & _ & E'); [intros L; cbn in L; repeat (destruct L as [L|L]; [discriminate L|]); destruct L|]. exact (I4 a' q E').
  - assert (W : forall k, In k [60; 10; 13] -> ~ In k s -> ~ In k (u "&lt;" ++ s)) by (intros k I J L; apply in_app_or in L as [L|L]; [cbn in I, L; repeat (destruct I as [<-|I]; [repeat (destruct L as [L|L]; [discriminate L|]); destruct L|]); destruct I|exact (J L)]).
    split; [apply W; [cbn; tauto|exact I1]|]. split; [apply W; [cbn; tauto|exact I2]|]. split; [apply W; [cbn; tauto|exact I3]|]. intros p q E. destruct p as [|c p]; [injection E as <-; exists s; right; reflexivity|]. injection E as _ E.
    destruct (MdGrammar.app_cut (u "lt;") s p q 38 E) as (a' & _ & E'); [intros L; cbn in L; repeat (destruct L as [L|L]; [discriminate L|]); destruct L|]. exact (I4 a' q E').
Qed.
Print Assumptions C45_text_html.
Example C45_text_example : to_markdown false (NText (u "  1. <b>&amp; `x` *y* [z]" ++ [10] ++ u "  > 2 \ ")) = Some (u "1\. &lt;b>&amp;amp; \`x\` \*y\* \[z\] > 2 \\") /\
  words (u "  1. <b>") [u "1."; u "<b>"] /\ words [9; 10] [] /\ displays (u "1\. &lt;b>") (u "1. <b>").
Proof.
  split; [vm_compute; reflexivity|]. split; [|split].
  - apply (W_word (u "  ") (u "1.") (u " <b>")); [intros c [<-|[<-|[]]]; reflexivity|discriminate|intros c [<-|[<-|[]]]; reflexivity|reflexivity|]. apply (W_word (u " ") (u "<b>") []); [intros c [<-|[]]; reflexivity|discriminate|intros c [<-|[<-|[<-|[]]]]; reflexivity|exact Logic.I|constructor; intros c []].
  - constructor. intros c [<-|[<-|[]]]; reflexivity.
  - assert (Nb : forall c, mem c inline_active = false -> ~ In c inline_active) by (intros c H I; apply StrFacts.mem_In in I; congruence).
    apply (DChar 49); [apply Nb; reflexivity|]. apply (DEscaped 46); [reflexivity|]. apply (DChar 32); [apply Nb; reflexivity|]. apply (DLt (u "b>") (u "b>")). repeat (apply DChar; [apply Nb; reflexivity|]). constructor.
Qed.

(* a text that would be a thematic break (three dashes) or a setext underline (an equals sign) is escaped at its start *)
Theorem C45_rule : forall passthrough d marker minimum, In (marker, minimum) [(45, 3%nat); (61, 1%nat)] -> (forall c, In c d -> c = marker \/ c = 32 \/ c = 9) ->
  (minimum <= List.length (filter (N.eqb marker) d))%nat -> exists out, to_markdown passthrough (NText d) = Some (92 :: out).
Proof. exact MdTextFinal.rule_text. Qed.
Print Assumptions C45_rule.
Example C45_rule_example : to_markdown false (NText (u " --- ")) = Some (u "\---") /\ to_markdown false (NText (u "-- ")) = Some (u "--").
Proof. split; vm_compute; reflexivity. Qed.

(* A code span: the reader finds the closing fence at the end, whatever the text, and (line breaks aside) the text comes back.
   inner: one_line s is s with line breaks replaced by spaces *)
Theorem C45_code_span_partial : forall s rest, ~ In s [[]; [10]; [13]; [13; 10]] -> starts [96] rest = false ->
  code_span_at (code_span s ++ rest) (if starts [96] (MdProofs.one_line s) || ends [96] (MdProofs.one_line s) then MdProofs.one_line s else code_content (MdProofs.one_line s)) rest.
Proof.
  intros s rest Hs. apply MdProofs.code_span_ok. intros E. destruct (MdDoc.one_line_empty s E) as [->|K]; apply Hs; [left; reflexivity|]. cbn in *. tauto.
Qed.
Print Assumptions C45_code_span_partial.
(* for a text without line breaks *)
Theorem C45_code_span_plain : forall s rest, s <> [] -> ~ In 10 s -> ~ In 13 s -> starts [96] rest = false -> starts [32] s && ends [32] s = false -> code_span_at (code_span s ++ rest) s rest.
Proof.
  intros s rest Hs N10 N13 Hr Hsp. assert (E : MdProofs.one_line s = s).
  { unfold MdProofs.one_line. destruct (mem 10 s) eqn:M; [destruct N10; apply StrFacts.mem_In, M|]. destruct (mem 13 s) eqn:M2; [destruct N13; apply StrFacts.mem_In, M2|]. reflexivity. }
  pose proof (MdProofs.code_span_ok s rest) as K. rewrite E in K. specialize (K Hs Hr). unfold code_content in K. rewrite Hsp in K. cbn [andb] in K. destruct (_ || _); exact K.
Qed.
Print Assumptions C45_code_span_plain.
(* line breaks aside nothing changes in the content *)
Theorem C45_code_span_content : forall s, ~ In 10 (MdProofs.one_line s) /\ ~ In 13 (MdProofs.one_line s) /\ filter MdProofs.solid_char (MdProofs.one_line s) = filter MdProofs.solid_char s.
Proof. intros s. destruct (MdProofs.one_line_no s) as [H1 H2]. split; [exact H1|]. split; [exact H2|]. apply MdProofs.one_line_keep. Qed.
Print Assumptions C45_code_span_content.
(* the fence is longer than every backtick run of the text *)
Theorem C45_fence : forall s minimum, exists n, backtick_fence s minimum = repeat 96 n /\ (minimum <= n)%nat /\ (forall p q, s <> p ++ repeat 96 n ++ q).
Proof. intros s m. exists (Nat.max m (longest_run 0 0 s + 1)). split; [reflexivity|]. split; [lia|]. apply MdProofs.no_long_run. lia. Qed.
Print Assumptions C45_fence.
Example C45_code_example : map code_span [u "a"; u "a`b"; u "`"; u "``x"; u "a" ++ [13; 10] ++ u "b"] = [u "`a`"; u "``a`b``"; u "`` ` ``"; u "``` ``x ```"; u "`a b`"] /\ code_span_at (u "``a`b``.") (u "a`b") (u ".").
Proof. split; [vm_compute; reflexivity|]. exact (C45_code_span_plain (u "a`b") (u ".") ltac:(discriminate) ltac:(intros I; cbn in I; repeat (destruct I as [I|I]; [discriminate I|]); destruct I) ltac:(intros I; cbn in I; repeat (destruct I as [I|I]; [discriminate I|]); destruct I) eq_refl eq_refl). Qed.

(* A pre element: one fenced block; its lines are those of the text (blanks at its very end are dropped), and none of them closes the block *)
Theorem C45_pre : forall passthrough ns attrs cs tc, let n := NElem (u "pre") ns attrs cs tc in
  exists out, to_markdown passthrough n = Some out /\ fenced_block out (match node_text n with [] => [] | _ => md_lines (MdPre.pre_body (node_text n) ++ [10]) end).
Proof. exact MdPre.pre_fenced. Qed.
Print Assumptions C45_pre.
Example C45_pre_example : to_markdown false (el "pre" [NText (u "a" ++ [10] ++ u "````" ++ [10; 10] ++ u " <b>" ++ [10])]) = Some (u "`````" ++ [10] ++ u "a" ++ [10] ++ u "````" ++ [10; 10] ++ u " <b>" ++ [10] ++ u "`````").
Proof. vm_compute. reflexivity. Qed.

(* Whole documents without img and table elements and without pre elements outside links: every backslash, backtick, <, & and bracket of the Markdown belongs to an escape, a reference, a
   closed code span or a link; so no text and no code becomes an HTML tag.  (plain_tree also excludes code (or linked pre) elements holding a single line break, and
   script, style and textarea if html_passthrough is set) *)
Theorem C45_document_partial : forall passthrough n out, MdDoc.plain_tree passthrough n = true -> to_markdown passthrough n = Some out -> markup out.
Proof. exact MdDoc.document_markup. Qed.
Print Assumptions C45_document_partial.
Definition sample : node := NDocument [el "h1" [NText (u "T`<i>")]; el "ul" [el "li" [NText (u "<x>"); el "code" [NText (u "a`<b>")]]; el "li" [link (u "/p q") [el "em" [NText (u "z&")]]]]; el "blockquote" [el "p" [NText (u "q_"); el "br" []; el "strong" [NText (u "s")]]]].
Example C45_document_example : MdDoc.plain_tree true sample = true /\
  to_markdown true sample = Some (u "# T\`&lt;i>" ++ [10; 10] ++ u "- &lt;x>``a`<b>``" ++ [10] ++ u "- [*z&amp;*](</p%20q>)" ++ [10; 10] ++ u "> q\_" ++ [10] ++ u "> **s**").
Proof. split; vm_compute; reflexivity. Qed.

(* What does not hold.  A code element that holds a single line break gives two backticks, which open a span with the text that follows; then the next
   code element is read as HTML *)
Theorem C45_code_span_refuted : exists out rest, to_markdown false (NDocument [el "code" [NText [10]]; NText (u "x"); el "code" [NText (u "`<img src=x onerror=alert(1)>")]]) = Some out /\
  code_span_at out (u "x") rest /\ rest = u " `<img src=x onerror=alert(1)> ``".
Proof.
  exists (u "``x`` `<img src=x onerror=alert(1)> ``"), (u " `<img src=x onerror=alert(1)> ``"). split; [vm_compute; reflexivity|]. split; [|reflexivity].
  exists 2%nat, (u "x"). split; [lia|]. split; [reflexivity|]. repeat (split; [first [reflexivity|discriminate]|]). split; [|split; [intros [I|[]]; discriminate I|split; [intros [I|[]]; discriminate I|reflexivity]]].
  intros p q E. exfalso. destruct p as [|a [|b p]]; discriminate E.
Qed.
Print Assumptions C45_code_span_refuted.
(* a carriage return in a pre element inside a blockquote ends the quoted line: <b> is outside of the quote and of the code block *)
Theorem C45_pre_refuted : exists out, to_markdown false (el "blockquote" [el "pre" [NText (13 :: u "<b>")]]) = Some out /\ md_lines out = [u "> ```"; u "> "; u "<b>"; u "> ```"].
Proof. eexists. split; vm_compute; reflexivity. Qed.
Print Assumptions C45_pre_refuted.
(* text that starts a block: a level two heading; a list item *)
Theorem C45_block_start_refuted : to_markdown false (NText (u "## x")) = Some (u "## x") /\ atx_heading (u "## x") = true /\ to_markdown false (NText (u "-" ++ [10] ++ u "x")) = Some (u "- x").
Proof. split; [|split]; vm_compute; reflexivity. Qed.
Print Assumptions C45_block_start_refuted.
(* text after an anchor without address: a link reference definition, which makes the second anchor a javascript: link *)
Theorem C45_reference_refuted : exists out first, to_markdown false (NDocument [el "p" [el "a" [NText (u "x")]; NText (u ": javascript:alert(1)")]; el "p" [el "a" [NText (u "x")]]]) = Some out /\
  md_lines out = [first; []; u "[x]"] /\ reference_definition first = Some (u "x", u "javascript:alert(1)").
Proof. exists (u "[x]: javascript:alert(1)" ++ [10; 10] ++ u "[x]"), (u "[x]: javascript:alert(1)"). split; [|split]; vm_compute; reflexivity. Qed.
Print Assumptions C45_reference_refuted.
(* a text that ends with ! makes an image of the link after it *)
Theorem C45_image_refuted : to_markdown false (NDocument [NText (u "Hi!"); link (u "https://t.co/") [NText (u "x")]]) = Some (u "Hi![x](https://t.co/)").
Proof. vm_compute. reflexivity. Qed.
Print Assumptions C45_image_refuted.
(* the spaces of a code element are lost *)
Theorem C45_code_space_refuted : code_span_at (code_span (u " a ")) (u "a") [].
Proof.
  pose proof (MdProofs.code_span_ok (u " a ") [] ltac:(discriminate) eq_refl) as K. rewrite app_nil_r in K. exact K.
Qed.
Print Assumptions C45_code_space_refuted.

(* ---------- C46 ---------- *)
(* the form of every destination *)
Theorem C46_shape : forall url d, link_destination url = Some d ->
  (forall c, In c d -> ~ In c (u " ()<>" ++ [9; 10; 13])) \/ (exists w, d = 60 :: w ++ [62] /\ forall c, In c w -> ~ In c (u " <>" ++ [9; 10; 13])).
Proof.
  intros url d H. destruct (MdLink.destination_cases url d H) as [[_ ->]|[[K _]|[_ (q & _ & ->)]]]; [left; intros c []|left; exact K|right; exists (flat_map md_quote_byte q); split; [reflexivity|]]. intros c I. exact (MdGrammar.dest_char_spec c (MdGrammar.quoted_ok q c I)).
Qed.
Print Assumptions C46_shape.
(* with blanks, parentheses or angle brackets: the reader finds the whole group and its end, and the address decodes to the URL *)
Theorem C46_wrapped : forall url d rest, unicode url -> link_destination url = Some d -> (exists c, In c (strip url) /\ In c (u " ()<>" ++ [9; 10; 13])) ->
  exists w, d = 60 :: w ++ [62] /\ destination (d ++ 41 :: rest) = Some (w, 41 :: rest) /\ (forall c, In c w -> ~ In c (u " \<>" ++ [9; 10; 13])) /\
    (~ In 37 url -> exists bytes, percent_decode w = Some bytes /\ utf8_decode bytes = Some (strip url)).
Proof. exact MdLink.destination_wrapped. Qed.
Print Assumptions C46_wrapped.
(* without: if there are no backslashes and controls either, the destination is the URL *)
Theorem C46_bare_partial : forall url d rest, link_destination url = Some d -> strip url <> [] -> (forall c, In c (strip url) -> ~ In c (u " ()<>" ++ [9; 10; 13])) ->
  (forall c, In c (strip url) -> c <> 92 /\ control_or_space c = false) ->
  d = strip url /\ destination (d ++ 41 :: rest) = Some (strip url, 41 :: rest).
Proof. exact MdLink.destination_bare. Qed.
Print Assumptions C46_bare_partial.
(* an exception only for lone surrogates *)
Theorem C46_total : forall url, link_destination url = None -> exists c, In c url /\ 55296 <= c < 57344.
Proof.
  intros url H. unfold link_destination in H. cbv zeta in H. destruct (strip url) as [|c0 s0] eqn:E; [discriminate H|]. rewrite <- E in H. destruct (existsb _ _); [|discriminate H]. destruct (utf8_encode (strip url)) as [q|] eqn:Q; [discriminate H|]. apply JsUrlProofs.utf8_encode_total in Q as (c & I & R). exists c. split; [exact (StrFacts.strip_incl _ _ _ I)|exact R].
Qed.
Print Assumptions C46_total.
(* a whole anchor: [text](destination), the text on one line *)
Theorem C46_link_partial : forall passthrough name ns attrs cs tc out, lower name = u "a" -> MdDoc.plain_tree passthrough (NElem name ns attrs cs tc) = true ->
  to_markdown passthrough (NElem name ns attrs cs tc) = Some out ->
  exists t d, out = u "[" ++ t ++ u "]" ++ d /\ markup t /\ ~ In 10 t /\ link_tail d /\ (href_of attrs = [] -> d = []) /\
    (forall x, href_of attrs <> [] -> link_destination (href_of attrs) = Some x -> d = u "(" ++ x ++ u ")").
Proof. exact MdDoc.link_output. Qed.
Print Assumptions C46_link_partial.
Example C46_example : map link_destination [u " http://e/a?b=`1` "; u "a (b)<c>\" ++ [10; 233]; u "  "] = [Some (u "http://e/a?b=`1`"); Some (u "<a%20(b)%3Cc%3E%5C%0A%C3%A9>"); Some []] /\
  destination (u "<a%20(b)>)x") = Some (u "a%20(b)", u ")x") /\ destination (u "/p?q)x") = Some (u "/p?q", u ")x") /\
  to_markdown false (link (u "x y") [el "p" [NText (u "a]b")]; el "p" [NText (u "c")]]) = Some (u "[a\]b c](<x%20y>)").
Proof. repeat split; vm_compute; reflexivity. Qed.

(* What does not hold: a backslash at the end escapes the parenthesis *)
Theorem C46_backslash_refuted : forall rest, link_destination (u "a\") = Some (u "a\") /\ destination (u "a\" ++ 41 :: 41 :: rest) = Some (u "a\)", 41 :: rest).
Proof. intros rest. split; reflexivity. Qed.
Print Assumptions C46_backslash_refuted.
(* other white space is kept (form feed); a CommonMark destination ends there *)
Theorem C46_whitespace_refuted : link_destination [97; 12; 98] = Some [97; 12; 98] /\ is_space 12 = true /\ destination ([97; 12; 98] ++ [41]) = Some ([97], [12; 98; 41]).
Proof. split; [|split]; vm_compute; reflexivity. Qed.
Print Assumptions C46_whitespace_refuted.
(* character references are not escaped: this URL is relative for the sanitizer (both at parse time and as an attribute), but a javascript: URL in Markdown *)
Theorem C46_entity_refuted : let url := u "java&#115;cript:alert(1)" in
  UrlModel.parse_time_url PropertiesUrl.py0 UrlModel.default_url_policy UrlModel.default_a_href (u "a") (u "href") url = UrlModel.Keep url /\
  exists w, link_destination url = Some (60 :: w ++ [62]) /\ (forall rest, destination (60 :: w ++ [62] ++ 41 :: rest) = Some (w, 41 :: rest)) /\ dereference 30 w = u "javascript:alert(1)".
Proof. split; [vm_compute; reflexivity|]. exists (u "java&#115;cript:alert(1)"). split; [vm_compute; reflexivity|]. split; [reflexivity|vm_compute; reflexivity]. Qed.
Print Assumptions C46_entity_refuted.
