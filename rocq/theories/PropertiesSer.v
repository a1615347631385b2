(* PROPERTIES C01-C11, C27, C51: escaping, serialization and character references.
   Read with HtmlTokSpec.v / HtmlCharRefSpec.v (the HTML standard's tokenizer), RawTextSpec.v, SerTreeSpec.v,
   JsSpec.v, PercentSpec.v (specifications) and SerializerModel.v, EntitiesModel.v (the code).
   [run sc O last st input]: the tokens an HTML tokenizer in state [st] produces for [input]. *)
From Verif Require Import Str HtmlCharRefSpec HtmlTokSpec RawTextSpec JsSpec PercentSpec SerializerModel EntitiesModel SerTreeSpec
  SerFinal SerEscapeProofs SerCommentProofs SerRawProofs SerTreeProofs JsUrlProofs EntitiesProofs EntExact.
Open Scope N_scope.

(* C01.  Text is inert wherever text is written (data or RCDATA) and whatever follows it. *)
Theorem C01_escaped_text_is_inert : forall sc last t rest,
  run sc O last Data (escape_text t ++ rest)%list = (chars t ++ run sc O last Data rest)%list /\
  run sc O last Rcdata (escape_text t ++ rest)%list = (chars (map nul t) ++ run sc O last Rcdata rest)%list /\
  ~ In 60 (escape_text t) /\ ~ In 62 (escape_text t).
Proof. exact c01. Qed.
Print Assumptions C01_escaped_text_is_inert.
Theorem C01_document_of_escaped_text : forall sc t, tokenize sc (escape_text t) = chars (newlines t).
Proof. exact tokenize_escaped_text. Qed.
Print Assumptions C01_document_of_escaped_text.
Example C01_example : escape_text (u "</p><b>&lt;") = u "&lt;/p&gt;&lt;b&gt;&amp;lt;".
Proof. reflexivity. Qed.

(* C02.  An escaped value ends only at the quote written after it, and decodes to itself. *)
Theorem C02_escaped_attr_value_stays_quoted : forall sc last t n v q rest, q = 34 \/ q = 39 ->
  run sc O last (if q =? 34 then AttrValDQ t n [] else AttrValSQ t n []) (escape_attr_value v q ++ q :: rest)%list
    = run sc O last (AfterAttrValQuoted (add_attr t n (map nul v))) rest /\
  ~ In q (escape_attr_value v q) /\ ~ In 60 (escape_attr_value v q) /\ ~ In 62 (escape_attr_value v q).
Proof. exact c02. Qed.
Print Assumptions C02_escaped_attr_value_stays_quoted.
Example C02_example : escape_attr_value (u "a"" onx='1'>&") 34 = u "a&quot; onx='1'&gt;&amp;".
Proof. reflexivity. Qed.

(* C03.  One start tag, whatever the options. *)
Theorem C03_start_tag_reads_as_itself : forall o ns name attrs s, serialize_start_tag o ns name attrs = Some s ->
  forall sc last, exists kvs, Forall2 (attr_shown (minimize_boolean_attributes o)) attrs kvs /\
    forall rest, run sc O last Data (s ++ rest)%list
      = TStart (canon_name name) (first_wins kvs) (use_trailing_solidus o && is_void o)
        :: run sc O (canon_name name) (switch sc (canon_name name)) rest.
Proof. exact start_tag_reads. Qed.
Print Assumptions C03_start_tag_reads_as_itself.
Theorem C03_end_tag_reads_as_itself : forall name s sc last rest, serialize_end_tag name = Some s ->
  run sc O last Data (s ++ rest)%list = TEnd (canon_name name) :: run sc O last Data rest.
Proof. exact end_tag_reads'. Qed.
Print Assumptions C03_end_tag_reads_as_itself.
(* exactly the unsafe names are rejected, except that one final newline goes unnoticed *)
Theorem C03_unsafe_names_rejected : forall o ns name attrs,
  (forall r, name <> (r ++ [10])%list) -> (forall kv r, In kv attrs -> fst kv <> (r ++ [10])%list) ->
  (serialize_start_tag o ns name attrs = None <->
   ((forall c r, name = c :: r -> is_alpha_ascii c = false) \/ exists c, In c name /\ bad_name_char c) \/
   (exists kv, In kv attrs /\ (fst kv = [] \/ exists c, In c (fst kv) /\ (bad_name_char c \/ c = 61)))).
Proof. exact starts_tag_rejects. Qed.
Print Assumptions C03_unsafe_names_rejected.
(* ... so a name that is not representable can be emitted and is read as another one *)
Theorem C03_final_newline_refuted : exists name k s,
  serialize_start_tag default_opts None name [(k, None)] = Some s /\
  run false O [] Data s = [TStart (u "div") [(u "onclick", [])] false] /\ name <> u "div" /\ k <> u "onclick".
Proof. exact final_newline_refuted. Qed.
Print Assumptions C03_final_newline_refuted.
Example C03_example : serialize_start_tag (TagOpts false true None true true) None (u "img")
    [(u "src", Some (u "a b")); (u "alt", Some (u "x&y")); (u "ISMAP", Some (u "ismap"))]
  = Some (u "<img src=""a b"" alt=x&amp;y ISMAP />").
Proof. reflexivity. Qed.

(* C04 *)
Theorem C04_comment_is_one_token : forall sc last d rest, exists d',
  run sc O last Data (u "<!--" ++ serialize_comment_data d ++ u "-->" ++ rest)%list = TComment d' :: run sc O last Data rest /\
  no_spaces d' = no_spaces (map nul d) /\ (plain_comment d -> d' = map nul d).
Proof. exact c04. Qed.
Print Assumptions C04_comment_is_one_token.
Example C04_example : serialize_comment_data (u ">--!><b>---") = u " >- -!><b>- - - ".
Proof. reflexivity. Qed.

(* C05 *)
Theorem C05_pi_is_one_token : forall sc last d rest,
  exists d', run sc O last Data (u "<?" ++ serialize_pi_data d ++ u "?>" ++ rest)%list = TComment d' :: run sc O last Data rest /\
  ~ In 62 (u "<?" ++ serialize_pi_data d ++ u "?")%list.
Proof. exact c05. Qed.
Print Assumptions C05_pi_is_one_token.
Example C05_example : serialize_pi_data (u "x?><script>") = u "x? <script ".
Proof. reflexivity. Qed.

(* C06 *)
Theorem C06_doctype_is_one_token : forall d,
  (exists a b c q, forall sc last rest, run sc O last Data (serialize_doctype d ++ rest)%list = TDoctype a b c q :: run sc O last Data rest) /\
  exists body, serialize_doctype d = (body ++ [62])%list /\ ~ In 62 body.
Proof. exact c06. Qed.
Print Assumptions C06_doctype_is_one_token.
Theorem C06_doctype_round_trips : forall n p s sc last rest, tag_name_re n = true ->
  (forall v c, p = Some v \/ s = Some v -> In c v -> ~ In c [38; 60; 62; 34]) ->
  run sc O last Data (serialize_doctype (DObj (Doctype_ (Some n) p s)) ++ rest)%list
  = TDoctype (Some (canon_name n)) (option_map (map nul) p) (option_map (map nul) s) false :: run sc O last Data rest.
Proof. exact c06_exact. Qed.
Print Assumptions C06_doctype_round_trips.
(* without the conditions the identifiers change: a public id without a name becomes the name; '&' becomes "&amp;" *)
Theorem C06_nameless_doctype_refuted : exists d a b c q, dt_name d = None /\
  run false O [] Data (serialize_doctype (DObj d)) = [TDoctype (Some a) b c q].
Proof. exact nameless_doctype_refuted. Qed.
Print Assumptions C06_nameless_doctype_refuted.
Example C06_example : serialize_doctype (DObj (Doctype_ (Some (u "html")) (Some (u "-//W3C")) (Some (u "x"">")))) = u "<!DOCTYPE html PUBLIC ""-//W3C"" ""x&quot;&gt;"">".
Proof. reflexivity. Qed.

(* C07.  [d'] is [d] itself unless [d] contains "</name". *)
Theorem C07_raw_text_cannot_close_its_element : forall sc name attrs d html,
  In name [u "style"; u "xmp"; u "iframe"; u "noembed"; u "noframes"] ->
  to_html_compact (NElem name (Some (u "html")) attrs [NText d] None) None = Ok html ->
  exists kvs d', Forall2 (attr_shown true) attrs kvs /\ (~ occurs_end name d -> d' = d) /\
   forall last rest, run sc O last Data (html ++ rest)%list
     = (TStart name (first_wins kvs) false :: chars (map nul d') ++ TEnd name :: run sc O [] Data rest)%list.
Proof. exact c07. Qed.
Print Assumptions C07_raw_text_cannot_close_its_element.
(* each text node is neutralised on its own, so two of them can close the element *)
Theorem C07_two_text_nodes_refuted : exists d1 d2 html,
  to_html_compact (NElem (u "style") (Some (u "html")) [] [NText d1; NText d2] None) None = Ok html /\
  In (TStart (u "img") [(u "onerror", u "x")] false) (run false O [] Data html).
Proof. exact two_text_nodes_refuted. Qed.
Print Assumptions C07_two_text_nodes_refuted.
(* neutralising can lose unrelated text that only looks like the start of an end tag *)
Theorem C07_text_lost_refuted : exists d d' a, neutralize d (u "style") = d' /\ d = (a ++ u "</stylex>q</STYLE>")%list /\ a <> [] /\
  d' = u "/stylex>q&lt;/STYLE>".
Proof. exact text_lost_refuted. Qed.
Print Assumptions C07_text_lost_refuted.
Example C07_example : to_html_compact (NElem (u "style") (Some (u "html")) [] [NText (u "a</STYLE ><b>")] None) None
  = Ok (u "<style>a&lt;/STYLE ><b></style>").
Proof. reflexivity. Qed.

(* C08.  Holds for scripts that do not contain "<!--" followed by "<script"; fails for one that does. *)
Theorem C08_script_cannot_close_its_element_partial : forall sc attrs d html, ~ hides_script_end d ->
  to_html_compact (NElem (u "script") (Some (u "html")) attrs [NText d] None) None = Ok html ->
  exists kvs d', Forall2 (attr_shown true) attrs kvs /\ (~ occurs_end (u "script") d -> d' = d) /\
   forall last rest, run sc O last Data (html ++ rest)%list
     = (TStart (u "script") (first_wins kvs) false :: chars (map nul d') ++ TEnd (u "script") :: run sc O [] Data rest)%list.
Proof. exact c08. Qed.
Print Assumptions C08_script_cannot_close_its_element_partial.
Theorem C08_double_escaped_script_refuted : exists d html, to_html_compact (NElem (u "script") (Some (u "html")) [] [NText d] None) None = Ok html /\
  forall rest, ~ In (TEnd (u "script")) (run false O [] Data (html ++ u "<p>" ++ chars_only rest)%list).
Proof. exact double_escaped_refuted. Qed.
Print Assumptions C08_double_escaped_script_refuted.
Example C08_example : hides_script_end (u "<!-- <script>") /\
  to_html_compact (NElem (u "script") (Some (u "html")) [] [NText (u "if(a</script>b)")] None) None = Ok (u "<script>if(a&lt;/script>b)</script>").
Proof. split; [exists [], (u " "), (u "script"), 62, []; repeat split; reflexivity|reflexivity]. Qed.

(* C09.  The whole tree.  [expressible]: trees HTML syntax has a notation for; [shown]: what reading them back must give. *)
Theorem C09_tree_reads_back : forall sc n html, expressible sc n -> to_html_compact n None = Ok html ->
  exists toks, shown sc n toks /\ run sc O [] Data html = toks.
Proof. exact tree_reads. Qed.
Print Assumptions C09_tree_reads_back.
Theorem C09_tree_tokenizes_back : forall sc n html, expressible sc n -> to_html_compact n None = Ok html -> ~ In 13 html ->
  shown sc n (tokenize sc html).
Proof. exact tree_tokenize. Qed.
Print Assumptions C09_tree_tokenizes_back.
(* the serializer is total: it raises only on unsafe names, never runs out of stack iterations *)
Theorem C09_serializer_total : forall n p, to_html_compact n p <> Fuel.
Proof. exact to_html_total. Qed.
Print Assumptions C09_serializer_total.
Example C09_example : expressible false
   (NDocument [NElem (u "div") (Some (u "html")) [(u "id", Some (u "a""b"))] [NText (u "1<2"); NComment (u "--><b>"); NElem (u "br") (Some (u "html")) [] [] None] None]) /\
  to_html_compact (NDocument [NElem (u "div") (Some (u "html")) [(u "id", Some (u "a""b"))] [NText (u "1<2"); NComment (u "--><b>"); NElem (u "br") (Some (u "html")) [] [] None] None]) None
  = Ok (u "<div id='a""b'>1&lt;2<!--- -><b>--><br></div>").
Proof. exact c09_example. Qed.

(* C10 *)
Theorem C10_js_string_evaluates_back : forall q v out, escape_js_string v [q] = Some out -> js_eval q out = Some v.
Proof. exact js_string_eval. Qed.
Print Assumptions C10_js_string_evaluates_back.
Theorem C10_js_string_is_inert : forall q v out, escape_js_string v [q] = Some out ->
  forall d, In d out -> d <> 60 /\ d <> 62 /\ d <> 10 /\ d <> 13 /\ d <> 8232 /\ d <> 8233.
Proof. exact js_string_safe. Qed.
Print Assumptions C10_js_string_is_inert.
Theorem C10_js_string_rejects_other_quotes : forall v q, escape_js_string v q = None <-> (q <> [34] /\ q <> [39]).
Proof. exact js_string_total. Qed.
Print Assumptions C10_js_string_rejects_other_quotes.
(* escape_html_text_in_js_string: the string's value, parsed as HTML, is the text *)
Theorem C10_text_in_js_reads_back : forall q v out, escape_html_text_in_js_string v [q] = Some out ->
  exists html, js_eval q out = Some html /\ forall sc last rest, run sc O last Data (html ++ rest)%list = (chars v ++ run sc O last Data rest)%list.
Proof. exact text_in_js. Qed.
Print Assumptions C10_text_in_js_reads_back.
Example C10_example : escape_js_string (u "</script>'""\") [34] = Some (u "\u003c/script\u003e'\""\\").
Proof. reflexivity. Qed.

(* C11 *)
Theorem C11_url_escape_decodes_back : forall v out, unicode v -> escape_url_value v = Some out ->
  exists bytes, percent_decode out = Some bytes /\ utf8_decode bytes = Some v.
Proof. exact escape_url_decodes. Qed.
Print Assumptions C11_url_escape_decodes_back.
Theorem C11_url_escape_injective : forall v w out, unicode v -> unicode w -> escape_url_value v = Some out -> escape_url_value w = Some out -> v = w.
Proof. exact escape_url_injective. Qed.
Print Assumptions C11_url_escape_injective.
Theorem C11_url_escape_alphabet : forall v out, unicode v -> escape_url_value v = Some out ->
  forall c, In c out -> is_alnum_ascii c = true \/ In c (u "_.-~/:@?&=#+%").
Proof. exact url_alphabet_in. Qed.
Print Assumptions C11_url_escape_alphabet.
Theorem C11_url_escape_raises_on_surrogates : forall v, escape_url_value v = None <-> exists c, In c v /\ 55296 <= c < 57344.
Proof. exact escape_url_raises. Qed.
Print Assumptions C11_url_escape_raises_on_surrogates.
Example C11_example : escape_url_value (u "/a b%<""" ++ [233]) = Some (u "/a%20b%25%3C%22%C3%A9") /\ unicode (u "/a b" ++ [233]).
Proof. split; [reflexivity|]. repeat constructor. Qed.

(* C27.  refs_ok (EntExact.v): after no & of the text do the ASCII characters of a reference run into a letter or digit outside ASCII (digits after &#,
   letters and digits after a name in an attribute).  All text is covered in which references are followed by ASCII, spaces or the end. *)
Theorem C27_charrefs_decode_as_html_partial : forall (in_attribute : bool) s, refs_ok in_attribute s ->
  decode_entities_in_text s in_attribute = Some (decode_spec in_attribute s).
Proof. exact c27_exact. Qed.
Print Assumptions C27_charrefs_decode_as_html_partial.
(* in particular text over characters on which Python's and ASCII's digit/letter classes agree *)
Theorem C27_charrefs_decode_plain : forall (in_attribute : bool) s,
  (forall c, In c s -> c < 128 \/ (if in_attribute then is_alnum c else is_digit c) = false) ->
  decode_entities_in_text s in_attribute = Some (decode_spec in_attribute s).
Proof. exact c27. Qed.
Print Assumptions C27_charrefs_decode_plain.
Theorem C27_text_without_amp_unchanged : forall in_attribute s, ~ In 38 s -> decode_entities_in_text s in_attribute = Some s.
Proof. exact decode_no_amp. Qed.
Print Assumptions C27_text_without_amp_unchanged.
(* an uncaught ValueError, a digit that is not a digit, and an undecoded reference in an attribute *)
Theorem C27_raises_refuted : exists s, decode_entities_in_text s false = None.
Proof. exact c27_raises. Qed.
Print Assumptions C27_raises_refuted.
Theorem C27_nonascii_digits_refuted : exists s v, decode_entities_in_text s false = Some v /\ v <> decode_spec false s.
Proof. exact c27_digits. Qed.
Print Assumptions C27_nonascii_digits_refuted.
Theorem C27_attribute_refuted : exists s v, decode_entities_in_text s true = Some v /\ v <> decode_spec true s.
Proof. exact c27_attr. Qed.
Print Assumptions C27_attribute_refuted.
Example C27_example : decode_entities_in_text (u "&notit; &#x41;&#0;&amp&lt=") false = Some (172 :: u "it; A" ++ [65533] ++ u "&<=")%list.
Proof. vm_compute. reflexivity. Qed.
Example C27_refs_ok : refs_ok true (26085 :: u "&amp; &#65;" ++ [26085])%list.
Proof.
  intros p t E. destruct p as [|x p]; [injection E as E _; discriminate E|]. injection E as _ E. destruct p as [|y p]; [injection E as E; subst t; vm_compute; reflexivity|]. injection E as _ E.
  do 5 (destruct p as [|? p]; [injection E as E' _; discriminate E'|injection E as _ E]). destruct p as [|z p]; [injection E as E; subst t; vm_compute; reflexivity|]. injection E as _ E.
  do 5 (destruct p as [|? p]; [injection E as E' _; discriminate E'|injection E as _ E]). destruct p; discriminate E.
Qed.

(* C51.  Same length, character by character: ASCII letters are lowered, the rest of ASCII is kept, and no
   non-ASCII character becomes ASCII. *)
Theorem C51_ascii_lower_preserves_offsets : forall t,
  Forall2 (fun c d => (c < 128 -> d = alow_c c) /\ (128 <= c -> 128 <= d)) t (ascii_lower t).
Proof. exact ascii_lower_lowered. Qed.
Print Assumptions C51_ascii_lower_preserves_offsets.
Example C51_example : ascii_lower (304 :: u "STYLE" ++ [8490])%list = (304 :: u "style" ++ [8490])%list.
Proof. vm_compute. reflexivity. Qed.
