(* PROPERTIES C54, C55: the pretty printer (to_html's default) *)
From Coq Require Import ZArith.
From Verif Require MiscSpaceProofs SerEscapeProofs.
From Verif Require Import MiscSpec Str StrFacts HtmlTokSpec TokFacts RawTextSpec SerializerModel SerTreeSpec SerTreeProofs SerFinal MiscModel
  PrettyModel PrettySpec PrettyProofs PrettyLayout PrettyMain PrettyFinal.
Open Scope list_scope. Open Scope N_scope.

(* C54: for every tree that HTML syntax can express, every indent and indent size, the pretty output is read by an
   HTML tokenizer as the same tags (with the same attributes), comments and doctypes, in the same order, as the
   compact output. *)
Theorem C54_same_markup sc n fragment indent indent_size html compact : expressible sc n -> document_on_top n ->
  to_html_pretty fragment n None indent indent_size = Some html -> to_html_compact n None = Ok compact ->
  markup (run sc O [] Data html) = markup (run sc O [] Data compact).
Proof.
  intros Hex Hd Hp Hc. destruct (top_Res false sc indent_size n fragment indent html Hex ltac:(discriminate) Hd Hp) as (c & tc & ts & A & B & C & D).
  rewrite to_html_ser, A in Hc. injection Hc as <-. rewrite (reads_run sc html ts C), (reads_run sc c tc B). rewrite !view_markup in D. exact D.
Qed.
Print Assumptions C54_same_markup.

(* ... and, unless an iframe, noembed, noframes or xmp element mentions its own end tag, as the same characters too,
   except for white space outside code, pre, script, style and textarea elements. *)
Theorem C54_same_text sc n fragment indent indent_size html compact : expressible sc n -> document_on_top n -> quiet n ->
  to_html_pretty fragment n None indent indent_size = Some html -> to_html_compact n None = Ok compact ->
  settled 0 (run sc O [] Data html) = settled 0 (run sc O [] Data compact).
Proof.
  intros Hex Hd Hq Hp Hc. destruct (top_Res true sc indent_size n fragment indent html Hex (fun _ => Hq) Hd Hp) as (c & tc & ts & A & B & C & D).
  rewrite to_html_ser, A in Hc. injection Hc as <-. rewrite (reads_run sc html ts C), (reads_run sc c tc B). rewrite !view_settled in D. exact D.
Qed.
Print Assumptions C54_same_text.

(* Together with the tokens the tree stands for (SerTreeSpec.shown): what a browser reads. *)
Theorem C54_tokens sc n fragment indent indent_size html : expressible sc n -> document_on_top n -> ~ In 13 html ->
  to_html_pretty fragment n None indent indent_size = Some html ->
  exists toks, shown sc n toks /\ markup (tokenize sc html) = markup toks /\ (quiet n -> settled 0 (tokenize sc html) = settled 0 toks).
Proof.
  intros Hex Hd H13 Hp.
  destruct (top_Res false sc indent_size n fragment indent html Hex ltac:(discriminate) Hd Hp) as (c & _ & _ & A & _).
  destruct (ser_reads sc n Hex None c Logic.I A) as (toks & S0 & R). exists toks. split; [exact S0|].
  assert (Hc : to_html_compact n None = Ok c) by (rewrite to_html_ser, A; reflexivity).
  unfold tokenize. rewrite (newlines_id html H13). pose proof (reads_run sc c toks R) as Er. split.
  - rewrite <- Er. exact (C54_same_markup sc n fragment indent indent_size html c Hex Hd Hp Hc).
  - intros Hq. rewrite <- Er. exact (C54_same_text sc n fragment indent indent_size html c Hex Hd Hq Hp Hc).
Qed.
Print Assumptions C54_tokens.

(* It raises ValueError exactly when the compact serializer does. *)
Theorem C54_raises sc n fragment indent indent_size : expressible sc n -> document_on_top n ->
  (to_html_pretty fragment n None indent indent_size = None <-> to_html_compact n None = Raise).
Proof.
  intros Hex Hd. rewrite to_html_ser. split.
  - intros E. destruct (ser n None) as [c|] eqn:Es; [|reflexivity]. exfalso. apply (top_works indent_size n fragment None indent); [congruence|exact E].
  - intros E. destruct (to_html_pretty fragment n None indent indent_size) as [html|] eqn:Ep; [|reflexivity]. exfalso.
    destruct (top_Res false sc indent_size n fragment indent html Hex ltac:(discriminate) Hd Ep) as (c & _ & _ & A & _). rewrite A in E. discriminate E.
Qed.
Print Assumptions C54_raises.
(* ... and for arbitrary trees it raises only if the compact serializer does *)
Theorem C54_raises_only n parent fragment indent indent_size :
  to_html_pretty fragment n parent indent indent_size = None -> to_html_compact n parent = Raise.
Proof.
  intros E. rewrite to_html_ser. destruct (ser n parent) as [c|] eqn:Es; [|reflexivity]. exfalso. apply (top_works indent_size n fragment parent indent); [congruence|exact E].
Qed.
Print Assumptions C54_raises_only.

Lemma eval_all_sers size l q ind : (forall c, In c l -> forall p ind, pretty size c p ind true = ser c p) ->
  sers l q = match eval_all (map (fun c => (c, pretty size c q)) l) ind true with Some x => Some (List.concat x) | None => None end.
Proof.
  induction l as [|n l IH]; intros H; [reflexivity|]. cbn [map eval_all sers]. rewrite (H n (or_introl eq_refl) q ind). rewrite (IH (fun c I => H c (or_intror I))).
  destruct (ser n q); [|reflexivity]. destruct (eval_all _ ind true); reflexivity.
Qed.
Lemma pre_content size name ns op cl kids ind pre : pre || in_strs name whitespace_preserving = true ->
  pretty_content size name ns op cl kids ind pre =
  match eval_all kids (ind + 1)%Z true with Some x => Some ((if pre then [] else pretty_indent ind size) ++ op ++ List.concat x ++ cl) | None => None end.
Proof. intros H. unfold pretty_content. rewrite H. destruct kids as [|k kids]; [cbn; reflexivity|]. destruct (eval_all (k :: kids) (ind + 1)%Z true); reflexivity. Qed.

(* A code, pre, script, style or textarea element (whatever it contains) is written exactly as the compact
   serializer writes it. *)
Lemma pretty_pre size n : no_document n -> forall p ind, pretty size n p ind true = ser n p.
Proof.
  induction n as [d|d|d|d|cs IH|name ns attrs cs tc IH IHt] using node_ind'; intros Hd p ind; try reflexivity.
  - exfalso. exact (Hd cs (w_self _)).
  - cbn [pretty]. rewrite ser_elem. destruct (serialize_start_tag default_opts ns name attrs) as [op|]; [|reflexivity]. destruct (in_strs name void_elements); [reflexivity|].
    rewrite pre_content by reflexivity. unfold serialized_children.
    assert (K : forall l q, Forall (fun n => no_document n -> forall p ind, pretty size n p ind true = ser n p) l -> (forall c, In c l -> no_document c) ->
      match eval_all (map (fun c => (c, pretty size c q)) l) (ind + 1)%Z true with Some x => Some (op ++ List.concat x ++ u "</" ++ name ++ u ">") | None => None end =
      match sers l q with Some t => Some (op ++ t ++ u "</" ++ name ++ u ">") | None => None end).
    { intros l q F H. rewrite (eval_all_sers size l q (ind + 1)%Z); [destruct (eval_all _ (ind + 1)%Z true); reflexivity|]. intros c I. rewrite Forall_forall in F. apply (F c I (H c I)). }
    destruct (_ && _); [destruct tc as [l|]|]; cbn [fst snd]; apply K; try exact IH; try (apply IHt; reflexivity); intros c I cs2 W; apply (Hd cs2).
    + exact (w_template _ c _ _ _ _ _ I W).
    + exact (w_child _ c _ _ _ _ _ I W).
    + exact (w_child _ c _ _ _ _ _ I W).
Qed.
Theorem C54_preformatted name ns attrs children template fragment parent indent_size :
  keeps_space name -> no_document (NElem name ns attrs children template) ->
  to_html_compact (NElem name ns attrs children template) parent =
  match to_html_pretty fragment (NElem name ns attrs children template) parent 0 indent_size with Some html => Ok html | None => Raise end.
Proof.
  intros Hk Hd. rewrite to_html_ser. unfold to_html_pretty. cbn [pretty]. rewrite ser_elem. destruct (serialize_start_tag default_opts ns name attrs) as [op|]; [|reflexivity].
  destruct (in_strs name void_elements); [reflexivity|].
  rewrite pre_content by (cbn [orb]; apply in_strs_In; exact Hk). unfold serialized_children.
  assert (K : forall l q, (forall c, In c l -> no_document c) ->
      match sers l q with Some t => Some (op ++ t ++ u "</" ++ name ++ u ">") | None => None end =
      match eval_all (map (fun c => (c, pretty indent_size c q)) l) (0 + 1)%Z true with Some x => Some (pretty_indent 0 indent_size ++ op ++ List.concat x ++ u "</" ++ name ++ u ">") | None => None end).
  { intros l q H. rewrite (eval_all_sers indent_size l q (0 + 1)%Z); [destruct (eval_all _ (0 + 1)%Z true); reflexivity|]. intros c I p ind. apply pretty_pre. exact (H c I). }
  destruct (_ && _); [destruct template as [l|]|]; cbn [fst snd]; rewrite K; try reflexivity; intros c I cs2 W; apply (Hd cs2).
  + exact (w_template _ c _ _ _ _ _ I W).
  + exact (w_child _ c _ _ _ _ _ I W).
  + exact (w_child _ c _ _ _ _ _ I W).
Qed.
Print Assumptions C54_preformatted.

(* ---------- cases that meet the hypotheses ---------- *)
Definition el (name : string) (cs : list node) : node := NElem (u name) (Some (u "html")) [] cs None.
Definition tx (s : string) : node := NText (u s).
Lemma short_name name : (match u name with c :: m => is_lower_ascii c && forallb (fun c => negb (mem c [0; 9; 10; 12; 13; 32; 47; 62]) && negb (is_upper_ascii c)) (u name) | [] => false end) = true -> html_name (u name).
Proof.
  destruct (u name) as [|c m] eqn:E; [discriminate|]. intros H. apply andb_prop in H as [A B]. split; [exists c, m; split; [reflexivity|exact A]|].
  intros x I. rewrite forallb_forall in B. specialize (B x I). apply andb_prop in B as [B1 B2]. apply Bool.negb_true_iff in B1, B2. split; [|exact B2]. intros J. apply mem_In in J. congruence.
Qed.
Lemma el_ok sc name cs : html_name (u name) -> data_name sc (u name) -> in_strs (u name) void_elements = false -> str_eqb (u name) (u "template") = false ->
  (forall c, In c cs -> expressible sc c) -> expressible sc (el name cs).
Proof. intros A B C D H. apply ex_data; [exact A|exact B|intros I; apply in_strs_In in I; congruence|]. unfold content. rewrite D. exact H. Qed.
Ltac ok_el := apply el_ok; [apply short_name; reflexivity|reflexivity|reflexivity|reflexivity|]; intros c I; cbn [In] in I; repeat (destruct I as [<-|I]; [|]); try (destruct I; fail).
Lemma quiet_by n : (forall m, within m n -> match m with NElem name _ _ _ _ => in_strs name [u "iframe"; u "noembed"; u "noframes"; u "xmp"] = false | _ => True end) -> quiet n.
Proof. intros H name ns attrs d tc I W. specialize (H _ W). change (in_strs name [u "iframe"; u "noembed"; u "noframes"; u "xmp"] = false) in H. apply in_strs_In in I. congruence. Qed.
Lemma no_document_by n : (forall m, within m n -> match m with NDocument _ => False | _ => True end) -> no_document n.
Proof. intros H cs W. exact (H _ W). Qed.

(* <div><p>one  two</p> <pre> x\n y</pre></div> *)
Definition sample : node := el "div" [el "p" [tx "one  two"]; tx " "; el "pre" [NText (u " x" ++ [10] ++ u " y")]].
Lemma within_leaf m d : within m (NText d) -> m = NText d. Proof. inversion 1. reflexivity. Qed.
Ltac walk := repeat match goal with
  | H : within ?m (el ?nm ?cs) |- _ => unfold el in H
  | H : within ?m (NText _) |- _ => apply within_leaf in H; subst m; exact Logic.I
  | H : within ?m (NElem _ _ _ ?cs None) |- _ => inversion H; clear H; subst; [reflexivity || exact Logic.I|]
  | H : In _ (_ :: _) |- _ => destruct H as [<-|H]
  | H : In _ [] |- _ => destruct H
  end.
Example C54_sample_ok : expressible false sample /\ document_on_top sample /\ quiet sample.
Proof.
  split; [|split].
  - unfold sample. ok_el; [|constructor|]; ok_el; constructor.
  - apply no_document_by. intros m W. unfold sample, tx in W. walk.
  - apply quiet_by. intros m W. unfold sample, tx in W. walk.
Qed.
Example C54_sample : to_html_pretty false sample None 0 2 = Some (u "<div>" ++ [10] ++ u "  <p>one two</p>" ++ [10] ++ u "  <pre> x" ++ [10] ++ u " y</pre>" ++ [10] ++ u "</div>").
Proof. reflexivity. Qed.
Example C54_sample_compact : to_html_compact sample None = Ok (u "<div><p>one  two</p> <pre> x" ++ [10] ++ u " y</pre></div>").
Proof. vm_compute. reflexivity. Qed.
Example C54_bad_name : to_html_pretty false (el "p" [tx "a"; el "a b" []]) None 0 2 = None.
Proof. vm_compute. reflexivity. Qed.

(* ---------- C55: the words of the text ---------- *)
(* the characters of the character tokens; [split_ws]: the words of a text *)
Definition characters (ts : list token) : str := flat_map (fun t => match t with TChar c => [c] | _ => [] end) ts.

(* An element that holds one text is read back as its words, separated by single spaces. *)
Theorem C55_text_partial sc name attrs d ws indent indent_size html :
  html_name name -> data_name sc name -> ~ In name void_elements -> ~ keeps_space name -> name <> u "template" ->
  words d ws -> (forall c, In c d -> is_space c = true -> is_html_space c = true) ->
  to_html_pretty false (NElem name (Some (u "html")) attrs [NText d] None) None indent indent_size = Some html ->
  exists k a, run sc O [] Data html = chars (repeat 32%N k) ++ TStart name a false :: chars (join [32] ws) ++ [TEnd name].
Proof.
  intros Hn Hd Hv Hk Ht Hw Hs E. unfold to_html_pretty in E. cbn [pretty] in E. destruct (serialize_start_tag default_opts _ name attrs) as [op|] eqn:Eop; [|discriminate E].
  destruct (start_reads sc name _ attrs op Hn Eop) as (kvs & _ & Hrun).
  destruct (in_strs name void_elements) eqn:Ev; [apply in_strs_In in Ev; contradiction|]. apply str_eqb_neq in Ht. rewrite Ht in E. cbn [andb] in E.
  pose proof (text_content indent_size name (Some (u "html")) op (u "</" ++ name ++ u ">") [d] indent false html E) as F. clear E. cbn [orb List.concat] in F. rewrite app_nil_r in F.
  destruct (keeps_spaceb name) eqn:Ek; [apply in_strs_In in Ek; contradiction|]. rewrite (text_in_data sc) in F by auto.
  rewrite (MiscSpaceProofs.collapse_html_words d ws Hw (or_intror Hs)) in F. rewrite SerEscapeProofs.escape_text_flat in F. subst html.
  exists (Z.to_nat (Z.min indent 64 * indent_size)), (first_wins kvs). rewrite <- (bl_text (pretty_indent indent indent_size) (bl_indent _ _)), SerEscapeProofs.run_data_esc.
  f_equal. rewrite Hrun. unfold data_name in Hd. rewrite Hd. rewrite SerEscapeProofs.run_data_esc, <- (app_nil_r (u "</" ++ name ++ u ">")), end_reads by exact Hn. reflexivity.
Qed.
Print Assumptions C55_text_partial.

(* That pretty-printing keeps the words of every tree does not hold:
   two words are joined ... *)
Definition joined : node := el "p" [NText (u "hello" ++ [10]); el "b" [tx "world"]].
Theorem C55_words_joined_refuted : expressible false joined /\ document_on_top joined /\ quiet joined /\
  exists html compact, to_html_pretty false joined None 0 2 = Some html /\ to_html_compact joined None = Ok compact /\
    split_ws (characters (tokenize false compact)) = [u "hello"; u "world"] /\ split_ws (characters (tokenize false html)) = [u "helloworld"].
Proof.
  split; [unfold joined; ok_el; [constructor|]; ok_el; constructor|]. split; [apply no_document_by; intros m W; unfold joined, tx in W; walk|].
  split; [apply quiet_by; intros m W; unfold joined, tx in W; walk|].
  exists (u "<p>hello<b>world</b></p>"), (u "<p>hello" ++ [10] ++ u "<b>world</b></p>").
  split; [vm_compute; reflexivity|]. split; [vm_compute; reflexivity|]. split; vm_compute; reflexivity.
Qed.
Print Assumptions C55_words_joined_refuted.
(* ... and one word is split. *)
Definition splitted : node := el "p" [el "b" [tx "Hel"]; el "i" [tx "lo"]].
Theorem C55_word_split_refuted : expressible false splitted /\ document_on_top splitted /\ quiet splitted /\
  exists html compact, to_html_pretty false splitted None 0 2 = Some html /\ to_html_compact splitted None = Ok compact /\
    split_ws (characters (tokenize false compact)) = [u "Hello"] /\ split_ws (characters (tokenize false html)) = [u "Hel"; u "lo"].
Proof.
  split; [unfold splitted; ok_el; ok_el; constructor|]. split; [apply no_document_by; intros m W; unfold splitted, tx in W; walk|].
  split; [apply quiet_by; intros m W; unfold splitted, tx in W; walk|].
  exists (u "<p>" ++ [10] ++ u "  <b>Hel</b>" ++ [10] ++ u "  <i>lo</i>" ++ [10] ++ u "</p>"), (u "<p><b>Hel</b><i>lo</i></p>").
  split; [vm_compute; reflexivity|]. split; [vm_compute; reflexivity|]. split; vm_compute; reflexivity.
Qed.
Print Assumptions C55_word_split_refuted.
(* A no-break space, which is not white space in HTML, disappears. *)
Definition nbsp : node := el "p" [NText [160]].
Theorem C55_nbsp_refuted : expressible false nbsp /\ document_on_top nbsp /\ quiet nbsp /\
  to_html_pretty false nbsp None 0 2 = Some (u "<p></p>") /\ to_html_compact nbsp None = Ok (u "<p>" ++ [160] ++ u "</p>").
Proof.
  split; [unfold nbsp; ok_el; constructor|]. split; [apply no_document_by; intros m W; unfold nbsp, tx in W; walk|].
  split; [apply quiet_by; intros m W; unfold nbsp, tx in W; walk|]. split; vm_compute; reflexivity.
Qed.
Print Assumptions C55_nbsp_refuted.
(* [quiet] is needed in C54_same_text: an xmp element that mentions its own end tag followed by a no-break space *)
Definition loud : node := el "xmp" [NText (u "</xmp" ++ [160] ++ u "x")].
Theorem C55_rawtext_refuted : expressible false loud /\ document_on_top loud /\
  exists html compact, to_html_pretty false loud None 0 2 = Some html /\ to_html_compact loud None = Ok compact /\
    settled 0 (run false O [] Data html) <> settled 0 (run false O [] Data compact).
Proof.
  split; [apply ex_raw; [apply short_name; reflexivity|reflexivity|discriminate]|]. split; [apply no_document_by; intros m W; unfold loud, tx in W; walk|].
  exists (u "<xmp>&lt;/xmp x</xmp>"), (u "<xmp></xmp" ++ [160] ++ u "x</xmp>").
  split; [vm_compute; reflexivity|]. split; [vm_compute; reflexivity|]. vm_compute. intros H. inversion H.
Qed.
Print Assumptions C55_rawtext_refuted.
