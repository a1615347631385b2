(* PROPERTY C56: text extraction (to_text, and the text searched by :contains()) *)
From Coq Require Import Lia.
From Verif Require Import Str StrFacts HtmlTokSpec TokFacts RawTextSpec SerializerModel SerTreeSpec SerTreeProofs SerFinal PrettySpec TextModel TextSpec TextProofs.
Open Scope list_scope. Open Scope N_scope.

(* Every tree has exactly one list of texts, and one sequence of texts and line boundaries. *)
Theorem C56_texts_defined n : (exists l, texts n l) /\ (forall l l', texts n l -> texts n l' -> l = l') /\
  (exists l, lines n l) /\ (forall l l', lines n l -> lines n l' -> l = l').
Proof.
  split; [|split; [|split]].
  - exists (texts_f n). apply texts_exist.
  - intros l l' A B. rewrite (texts_unique n l A), (texts_unique n l' B). reflexivity.
  - exists (items_f n). apply lines_exist.
  - intros l l' A B. rewrite (lines_unique n l A), (lines_unique n l' B). reflexivity.
Qed.
Print Assumptions C56_texts_defined.

(* to_text(separator, strip): the text nodes in document order, stripped if asked, empty ones left out, joined *)
Theorem C56_text separator strip_it n l : texts n l -> to_text separator strip_it false n = Some (join separator (pieces strip_it l)).
Proof. apply to_text_plain. Qed.
Print Assumptions C56_text.

(* to_text(separator, strip, separator_blocks_only=True): the separator stands between non-empty paragraphs only *)
Theorem C56_blocks separator strip_it n l : lines n l ->
  to_text separator strip_it true n = Some (join separator (map (join (if strip_it then u " " else [])) (nonempty (map (pieces strip_it) (paragraphs l))))).
Proof. apply to_text_blocks. Qed.
Print Assumptions C56_blocks.

(* without separator and stripping nothing is lost, added or reordered *)
Lemma join_empty_sep l : join [] l = List.concat l.
Proof. induction l as [|x [|y l] IH]; [reflexivity|cbn; rewrite app_nil_r; reflexivity|]. change (join [] (x :: y :: l)) with (x ++ [] ++ join [] (y :: l)). rewrite IH. reflexivity. Qed.
Lemma concat_nonempty {A} (l : list (list A)) : List.concat (nonempty l) = List.concat l.
Proof. induction l as [|[|c x] l IH]; [reflexivity|exact IH|]. cbn [nonempty filter List.concat]. unfold nonempty in IH. rewrite IH. reflexivity. Qed.
Theorem C56_nothing_lost n l : texts n l -> to_text [] false false n = Some (List.concat l).
Proof. intros H. rewrite (C56_text [] false n l H). rewrite join_empty_sep. unfold pieces. rewrite concat_nonempty. reflexivity. Qed.
Print Assumptions C56_nothing_lost.

(* ... also with separator_blocks_only, as long as no br element has content *)
Definition empty_brs (n : node) : Prop := forall ns attrs cs tc, within (NElem (u "br") ns attrs cs tc) n -> cs = [] /\ tc = None.
Definition words_of (l : list item) : list str := flat_map (fun i => match i with Words d => [d] | Boundary => [] end) l.
Lemma paragraphs_words l : List.concat (paragraphs l) = words_of l.
Proof.
  induction l as [|[d|] l IH]; [reflexivity| |exact IH]. cbn [paragraphs words_of flat_map]. fold (words_of l). rewrite <- IH. destruct (paragraphs_cons l) as (p & ps & ->). reflexivity.
Qed.
Lemma words_app a b : words_of (a ++ b) = words_of a ++ words_of b. Proof. apply flat_map_app. Qed.
Lemma words_list (l : list node) : Forall (fun n => words_of (items_f n) = texts_f n) l -> words_of (flat_map items_f l) = flat_map texts_f l.
Proof. induction 1 as [|n l A H IH]; [reflexivity|]. cbn [flat_map]. rewrite words_app, A, IH. reflexivity. Qed.
Lemma words_texts n : empty_brs n -> words_of (items_f n) = texts_f n.
Proof.
  induction n as [d|d|d|d|cs IH|name ns attrs cs tc IH IHt] using node_ind'; intros H; try reflexivity.
  - apply words_list. rewrite Forall_forall in *. intros c I. apply (IH c I). intros ns attrs cs2 tc W. apply (H ns attrs cs2 tc). exact (w_document _ c cs I W).
  - rewrite items_elem. unfold wrap. destruct (in_strs name text_break_elements) eqn:E.
    + apply br_spec in E. subst name. destruct (H ns attrs cs tc (w_self _)) as [-> ->]. reflexivity.
    + assert (W1 : words_of (flat_map items_f cs) = flat_map texts_f cs).
      { apply words_list. rewrite Forall_forall in *. intros c I. apply (IH c I). intros ns2 attrs2 cs2 tc2 W. apply (H ns2 attrs2 cs2 tc2). exact (w_child _ c _ _ _ _ _ I W). }
      assert (W2 : words_of (match tc with Some l => flat_map items_f l | None => [] end) = match tc with Some l => flat_map texts_f l | None => [] end).
      { destruct tc as [l|]; [|reflexivity]. specialize (IHt l eq_refl). apply words_list. rewrite Forall_forall in *. intros c I. apply (IHt c I). intros ns2 attrs2 cs2 tc2 W. apply (H ns2 attrs2 cs2 tc2). exact (w_template _ c _ _ _ _ _ I W). }
      cbn [texts_f]. destruct (in_strs name text_block_elements); [change (words_of (Boundary :: ?x)) with (words_of x)|]; rewrite ?words_app, W1, W2; [|reflexivity].
      cbn [words_of flat_map]. rewrite app_nil_r. reflexivity.
Qed.
Lemma concat_concat_pieces l : List.concat (map (@List.concat N) (nonempty (map (pieces false) (paragraphs l)))) = List.concat (words_of l).
Proof.
  rewrite <- paragraphs_words. induction (paragraphs l) as [|p ps IH]; [reflexivity|]. cbn [map nonempty filter List.concat]. rewrite concat_app, <- IH.
  assert (E : List.concat (pieces false p) = List.concat p) by (unfold pieces; apply concat_nonempty).
  destruct (pieces false p) as [|x xs] eqn:Ep; [cbn in E; rewrite <- E; reflexivity|]. cbn [map List.concat] in *. rewrite E. reflexivity.
Qed.
Theorem C56_blocks_nothing_lost n l : texts n l -> empty_brs n -> to_text [] false true n = Some (List.concat l).
Proof.
  intros H Hb. rewrite (C56_blocks [] false n (items_f n) (lines_exist n)). rewrite join_empty_sep. f_equal.
  rewrite (map_ext (join []) (@List.concat N) join_empty_sep). rewrite concat_concat_pieces, (words_texts n Hb), (texts_unique n l H). reflexivity.
Qed.
Print Assumptions C56_blocks_nothing_lost.
(* A br element with content (possible through the DOM API) loses it in that mode. *)
Theorem C56_br_content_refuted : exists n l, texts n l /\ to_text [] false true n <> Some (List.concat l).
Proof.
  exists (NElem (u "br") (Some (u "html")) [] [NText (u "x")] None), [u "x"]. split; [|vm_compute; discriminate].
  exact (texts_exist (NElem (u "br") (Some (u "html")) [] [NText (u "x")] None)).
Qed.
Print Assumptions C56_br_content_refuted.

(* The text :contains() searches is to_text(separator=" ", strip=True). *)
Theorem C56_contains n : to_text (u " ") true false n = Some (contains_text n).
Proof. rewrite (C56_text (u " ") true n (texts_f n) (texts_exist n)), contains_spec. reflexivity. Qed.
Print Assumptions C56_contains.

(* The text is what a browser shows of the serialized tree: the characters an HTML tokenizer reads from to_html's
   output are those of to_text(separator="", strip=False), up to NUL characters (which raw text replaces). *)
Definition characters (ts : list token) : str := flat_map (fun t => match t with TChar c => [c] | _ => [] end) ts.
(* only template elements have template contents, instead of children, and no element mentions its own end tag as raw text *)
Definition parser_like (n : node) : Prop :=
  (forall name ns attrs cs tc, within (NElem name ns attrs cs tc) n -> tc = None \/ (name = u "template" /\ cs = [])) /\
  (forall name ns attrs d tc, within (NElem name ns attrs [NText d] tc) n -> ~ occurs_end name d).
Lemma characters_app a b : characters (a ++ b) = characters a ++ characters b. Proof. apply flat_map_app. Qed.
Lemma characters_chars d : characters (chars d) = d.
Proof. induction d as [|c d IH]; [reflexivity|]. change (chars (c :: d)) with (TChar c :: chars d). cbn [characters flat_map app]. fold (characters (chars d)). rewrite IH. reflexivity. Qed.
Lemma characters_start a b c l : characters (TStart a b c :: l) = characters l. Proof. reflexivity. Qed.
Lemma characters_end l a : characters (l ++ [TEnd a]) = characters l. Proof. rewrite characters_app. apply app_nil_r. Qed.
Lemma nul_nul s : map nul (map nul s) = map nul s.
Proof. rewrite map_map. apply map_ext. intros c. unfold nul. destruct (c =? 0) eqn:E; [reflexivity|]. rewrite E. reflexivity. Qed.
Lemma texts_of_texts ds : List.concat (flat_map texts_f (map NText ds)) = List.concat ds.
Proof. induction ds as [|d ds IH]; [reflexivity|]. cbn [map flat_map texts_f app List.concat]. rewrite IH. reflexivity. Qed.
Scheme shown_mut := Minimality for shown Sort Prop with shown_list_mut := Minimality for shown_list Sort Prop.
Lemma parser_like_in n c : (forall m, within m c -> within m n) -> parser_like n -> parser_like c.
Proof. intros W [A B]. split; [intros name ns attrs cs tc H; apply (A name ns attrs cs tc), W, H|intros name ns attrs d tc H; apply (B name ns attrs d tc), W, H]. Qed.
Lemma shown_texts sc n ts : shown sc n ts -> parser_like n -> map nul (characters ts) = map nul (List.concat (texts_f n)).
Proof.
  intros H. apply (shown_mut sc (fun n ts => parser_like n -> map nul (characters ts) = map nul (List.concat (texts_f n)))
    (fun l ts => (forall c, In c l -> parser_like c) -> map nul (characters ts) = map nul (List.concat (flat_map texts_f l)))) with (n := n) (l := ts); try exact H; clear n ts H.
  - intros d _. rewrite characters_chars. cbn [texts_f List.concat]. rewrite app_nil_r. reflexivity.
  - reflexivity.
  - reflexivity.
  - reflexivity.
  - intros cs ts _ IH P. apply IH. intros c I. refine (parser_like_in _ c _ P). intros m W. exact (w_document _ c cs I W).
  - intros name ns attrs kvs tc V _ [P _]. destruct (P name ns attrs [] tc (w_self _)) as [->|[-> _]]; [reflexivity|]. exfalso. apply in_strs_In in V. discriminate V.
  - intros name ns attrs kvs cs tc ts _ _ _ _ IH P. rewrite characters_start, characters_end. destruct (proj1 P name ns attrs cs tc (w_self _)) as [->|[-> ->]].
    + rewrite IH; [|intros c I; refine (parser_like_in _ c _ P); intros m W; unfold content in I; destruct (str_eqb name (u "template")); exact (w_child _ c _ _ _ _ _ I W)].
      cbn [texts_f]. rewrite app_nil_r. unfold content. destruct (str_eqb name (u "template")); reflexivity.
    + unfold content in IH. rewrite str_eqb_refl in IH. destruct tc as [l|].
      * rewrite IH; [|intros c I; refine (parser_like_in _ c _ P); intros m W; exact (w_template _ c _ _ _ _ _ I W)]. reflexivity.
      * rewrite IH; [reflexivity|intros c []].
  - intros name ns attrs kvs ds tc R _ [P _]. rewrite characters_start, characters_end, characters_chars, nul_nul.
    destruct (P name ns attrs (map NText ds) tc (w_self _)) as [->|[-> _]]; [|exfalso; destruct sc; vm_compute in R; discriminate R].
    cbn [texts_f]. rewrite app_nil_r, texts_of_texts. reflexivity.
  - intros name ns attrs kvs tc R _ [P _]. destruct (P name ns attrs [] tc (w_self _)) as [->|[-> _]]; [reflexivity|]. exfalso. destruct R as [R|R]; destruct sc; vm_compute in R; discriminate R.
  - intros name ns attrs kvs d d' tc R _ Hd [P1 P2]. rewrite characters_start, characters_end, characters_chars, nul_nul.
    destruct (P1 name ns attrs [NText d] tc (w_self _)) as [->|[-> _]]; [|exfalso; destruct R as [R|R]; destruct sc; vm_compute in R; discriminate R].
    rewrite (Hd (P2 name ns attrs d None (w_self _))). cbn. rewrite app_nil_r. reflexivity.
  - reflexivity.
  - intros n l a b _ IHn _ IHl P. rewrite characters_app, map_app, (IHn (P n (or_introl eq_refl))), (IHl (fun c I => P c (or_intror I))). cbn [flat_map]. rewrite concat_app, map_app. reflexivity.
Qed.
Theorem C56_same_as_html sc n html : expressible sc n -> parser_like n -> to_html_compact n None = Ok html -> ~ In 13 html ->
  exists text, to_text [] false false n = Some text /\ map nul (characters (tokenize sc html)) = map nul text.
Proof.
  intros E P H R. exists (List.concat (texts_f n)). split; [apply C56_nothing_lost, texts_exist|].
  exact (shown_texts sc n _ (tree_tokenize sc n html E H R) P).
Qed.
Print Assumptions C56_same_as_html.

(* ---------- examples ---------- *)
Definition el (name : string) (cs : list node) : node := NElem (u name) (Some (u "html")) [] cs None.
Definition sample : node := el "div" [el "p" [NText (u " one "); el "b" [NText (u "two")]]; NComment (u "c"); NText (u "  "); NElem (u "template") (Some (u "html")) [] [] (Some [NText (u "three"); el "br" []; NText (u "four")])].
Example C56_sample_text : texts sample [u " one "; u "two"; u "  "; u "three"; u "four"]. Proof. exact (texts_exist sample). Qed.
Example C56_sample_plain : to_text (u "|") true false sample = Some (u "one|two|three|four"). Proof. vm_compute. reflexivity. Qed.
Example C56_sample_blocks : to_text (u "|") true true sample = Some (u "one two|three|four"). Proof. vm_compute. reflexivity. Qed.
Example C56_sample_unstripped : to_text (u "|") false false sample = Some (u " one |two|  |three|four"). Proof. vm_compute. reflexivity. Qed.
Example C56_sample_lines : lines sample [Boundary; Boundary; Words (u " one "); Words (u "two"); Boundary; Words (u "  "); Words (u "three"); Boundary; Words (u "four"); Boundary].
Proof. exact (lines_exist sample). Qed.

(* <p>a &amp; b<style>x</style></p> *)
Definition page : node := el "p" [NText (u "a & b"); el "style" [NText (u "x")]].
Example C56_page_ok : expressible false page /\ parser_like page /\ to_html_compact page None = Ok (u "<p>a &amp; b<style>x</style></p>").
Proof.
  split; [|split].
  - unfold page, el. apply ex_data; [apply html_name_dec; reflexivity|reflexivity|intros I; apply in_strs_In in I; discriminate I|].
    intros c I. change (In c [NText (u "a & b"); el "style" [NText (u "x")]]) in I. cbn [In] in I. destruct I as [<-|[<-|[]]]; [constructor|]. apply ex_raw; [apply html_name_dec; reflexivity|reflexivity|discriminate].
  - split.
    + intros name ns attrs cs tc W. left. unfold page, el in W. inversion W; subst; [reflexivity|]. match goal with H : In _ _ |- _ => destruct H as [<-|[<-|[]]] end.
      * match goal with H : within _ _ |- _ => inversion H end.
      * match goal with H : within _ _ |- _ => inversion H; subst end; [reflexivity|]. match goal with H : In _ _ |- _ => destruct H as [<-|[]] end. match goal with H : within _ (NText _) |- _ => inversion H end.
    + intros name ns attrs d tc W O. unfold page, el in W. inversion W; subst. match goal with H : In _ _ |- _ => destruct H as [<-|[<-|[]]] end.
      * match goal with H : within _ _ |- _ => inversion H end.
      * match goal with H : within _ _ |- _ => inversion H; subst end; [|match goal with H : In _ _ |- _ => destruct H as [<-|[]] end; match goal with H : within _ (NText _) |- _ => inversion H end].
        destruct O as (a & m & b & E & _). apply (f_equal (@List.length N)) in E. rewrite !app_length in E. cbn in E. lia.
  - vm_compute. reflexivity.
Qed.
