(* SPECIFICATION: which tokens a DOM node stands for.  Uses only the node type of SerializerModel.v, the token type
   of HtmlTokSpec.v and RawTextSpec.v; none of the serializer's functions. *)
From Verif Require Import Str HtmlTokSpec RawTextSpec SerializerModel.
Open Scope N_scope.

(* How the tokenizer reads a name: ASCII-lowercased, NUL replaced. *)
Definition canon (s : str) : str := map (fun c => nul (alow_c c)) s.
(* ... without one final newline (the serializer accepts such names; the tokenizer sees a separator) *)
Definition canon_name (s : str) : str := canon (match rev s with 10 :: r => rev r | _ => s end).

(* How an attribute (k, v) of the DOM may appear in the token read back: under its tokenizer name, with its value
   (NUL replaced), or - a boolean attribute whose value repeats its name - with the empty value. *)
Definition attr_shown (minimize : bool) (kv : str * option str) (kv' : str * str) : Prop :=
  fst kv' = canon_name (fst kv) /\
  (snd kv' = map nul (match snd kv with Some v => v | None => [] end) \/
   (minimize = true /\ snd kv' = [] /\ exists v, snd kv = Some v /\ is_ascii v = true /\ lower v = lower (fst kv))).

(* of several attributes with the same name a tokenizer keeps the first *)
Definition first_wins (l : list (str * str)) : list (str * str) :=
  fold_left (fun acc p => if existsb (fun q => str_eqb (fst p) (fst q)) acc then acc else (acc ++ [p])%list) l [].

(* A name the HTML tokenizer itself can produce: first an ASCII letter, no separators, no upper case, no NUL. *)
Definition html_name (n : str) : Prop :=
  (exists c m, n = c :: m /\ is_lower_ascii c = true) /\
  (forall c, In c n -> ~ In c [0; 9; 10; 12; 13; 32; 47; 62] /\ is_upper_ascii c = false).

Definition no_spaces (s : str) : str := filter (fun c => negb (c =? 32)) s.

(* comment data that a comment can hold as it is *)
Definition plain_comment (d : str) : Prop :=
  (forall a b, d <> a ++ [45; 45] ++ b)%list /\ (forall b, d <> 62 :: b) /\ (forall b, d <> 45 :: 62 :: b) /\ (forall a, d <> a ++ [45])%list.

Definition raw_name (sc : bool) (n : str) : Prop := switch sc n = Rawtext.
Definition script_name (sc : bool) (n : str) : Prop := switch sc n = ScriptData.
Definition rcdata_name (sc : bool) (n : str) : Prop := switch sc n = Rcdata.
Definition data_name (sc : bool) (n : str) : Prop := switch sc n = Data.

(* the nodes an element's content consists of *)
Definition content (name : str) (children : list node) (tc : option (list node)) : list node :=
  if str_eqb name (u "template") then match tc with Some l => l | None => children end else children.

(* Trees of HTML elements that HTML syntax can express at all:
   void elements are empty; textarea/title hold only text; style/script & co. hold at most one text node;
   there is no plaintext element; and no script hides its own end tag ("<!--" ... "<script"). *)
Inductive expressible (sc : bool) : node -> Prop :=
| ex_text d : expressible sc (NText d)
| ex_comment d : expressible sc (NComment d)
| ex_pi d : expressible sc (NPI d)
| ex_doctype d : expressible sc (NDoctype d)
| ex_document cs : (forall c, In c cs -> expressible sc c) -> expressible sc (NDocument cs)
| ex_void name attrs tc : html_name name -> In name void_elements -> expressible sc (NElem name (Some (u "html")) attrs [] tc)
| ex_data name attrs cs tc : html_name name -> data_name sc name -> ~ In name void_elements ->
    (forall c, In c (content name cs tc) -> expressible sc c) -> expressible sc (NElem name (Some (u "html")) attrs cs tc)
| ex_rcdata name attrs ds tc : html_name name -> rcdata_name sc name ->
    expressible sc (NElem name (Some (u "html")) attrs (map NText ds) tc)
| ex_raw0 name attrs tc : html_name name -> raw_name sc name \/ script_name sc name -> name <> u "noscript" ->
    expressible sc (NElem name (Some (u "html")) attrs [] tc)
| ex_raw name attrs d tc : html_name name -> raw_name sc name -> name <> u "noscript" ->
    expressible sc (NElem name (Some (u "html")) attrs [NText d] tc)
| ex_script name attrs d tc : html_name name -> script_name sc name -> ~ hides_script_end d ->
    expressible sc (NElem name (Some (u "html")) attrs [NText d] tc).

(* [shown sc n toks]: [toks] are the tokens of [n]: one start tag and one end tag per (non-void) element, around the
   tokens of its content; the exact characters of every text; one comment token per comment (its data changed at
   most by added spaces) or processing instruction; one doctype token per doctype.
   Raw text is reproduced exactly unless it contains an end tag for its own element. *)
Inductive shown (sc : bool) : node -> list token -> Prop :=
| sh_text d : shown sc (NText d) (chars d)
| sh_comment d d' : no_spaces d' = no_spaces (map nul d) -> (plain_comment d -> d' = map nul d) -> shown sc (NComment d) [TComment d']
| sh_pi d d' : shown sc (NPI d) [TComment d']
| sh_doctype d a b c q : shown sc (NDoctype d) [TDoctype a b c q]
| sh_document cs ts : shown_list sc cs ts -> shown sc (NDocument cs) ts
| sh_void name ns attrs kvs tc : In name void_elements -> Forall2 (attr_shown true) attrs kvs ->
    shown sc (NElem name ns attrs [] tc) [TStart name (first_wins kvs) false]
| sh_elem name ns attrs kvs cs tc ts : ~ In name void_elements -> data_name sc name -> Forall2 (attr_shown true) attrs kvs ->
    shown_list sc (content name cs tc) ts ->
    shown sc (NElem name ns attrs cs tc) (TStart name (first_wins kvs) false :: ts ++ [TEnd name])%list
| sh_rcdata name ns attrs kvs ds tc : rcdata_name sc name -> Forall2 (attr_shown true) attrs kvs ->
    shown sc (NElem name ns attrs (map NText ds) tc) (TStart name (first_wins kvs) false :: chars (map nul (List.concat ds)) ++ [TEnd name])%list
| sh_raw0 name ns attrs kvs tc : raw_name sc name \/ script_name sc name -> Forall2 (attr_shown true) attrs kvs ->
    shown sc (NElem name ns attrs [] tc) [TStart name (first_wins kvs) false; TEnd name]
| sh_raw name ns attrs kvs d d' tc : raw_name sc name \/ script_name sc name -> Forall2 (attr_shown true) attrs kvs ->
    (~ occurs_end name d -> d' = d) ->
    shown sc (NElem name ns attrs [NText d] tc) (TStart name (first_wins kvs) false :: chars (map nul d') ++ [TEnd name])%list
with shown_list (sc : bool) : list node -> list token -> Prop :=
| sl_nil : shown_list sc [] []
| sl_cons n l a b : shown sc n a -> shown_list sc l b -> shown_list sc (n :: l) (a ++ b)%list.
