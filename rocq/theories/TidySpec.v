(* SPECIFICATION for CollapseWhitespace and PruneEmpty (C58, C59).  Nothing of TransModel is used. *)
From Verif Require Import Str SerializerModel MiscSpec TextSpec PrettySpec.
Open Scope list_scope. Open Scope N_scope.

Definition has_attr (k : str) (attrs : list (str * option str)) : bool := existsb (fun kv => str_eqb (fst kv) k) attrs.
Definition attr_is (k v : str) (attrs : list (str * option str)) : bool :=
  match List.find (fun kv => str_eqb (fst kv) k) attrs with Some (_, Some w) => str_eqb (lower w) v | _ => false end.
(* elements a browser shows nothing for *)
Definition invisible (name : str) (attrs : list (str * option str)) : bool :=
  in_strs (lower name) (map u ["datalist"; "link"; "meta"; "script"; "style"; "template"]%string)
  || has_attr (u "hidden") attrs
  || (str_eqb (lower name) (u "dialog") && negb (has_attr (u "open") attrs))
  || (str_eqb (lower name) (u "input") && attr_is (u "type") (u "hidden") attrs).

(* the text shown for a node, with line boundaries around br and the given block elements (the doctype is one if listed) *)
Fixpoint shown_lines (blocks : list str) (n : node) : list item :=
  match n with
  | NText d => [Words d]
  | NComment _ | NPI _ | NDocument _ => []
  | NDoctype _ => if in_strs (u "!doctype") blocks then [Boundary] else []
  | NElem name _ attrs cs _ =>
    if invisible name attrs then []
    else if str_eqb (lower name) (u "br") || in_strs (lower name) blocks then Boundary :: flat_map (shown_lines blocks) cs ++ [Boundary]
    else flat_map (shown_lines blocks) cs
  end.
Definition shown_text (blocks : list str) (n : node) : list item :=
  match n with NDocument cs => flat_map (shown_lines blocks) cs | _ => shown_lines blocks n end.

(* the same words, paragraph by paragraph *)
Definition same_words (a b : list item) : Prop :=
  Forall2 (fun p q => forall ws, words (List.concat p) ws <-> words (List.concat q) ws) (paragraphs a) (paragraphs b).

Definition solid_chars (s : str) : str := filter (fun c => negb (is_html_space c)) s.
(* no white space but single spaces *)
Definition single_spaced (s : str) : Prop := (forall c, In c s -> is_html_space c = true -> c = 32) /\ (forall x c d y, s = x ++ c :: d :: y -> is_html_space c = true -> is_html_space d = false).

(* Only white space in text outside the elements named in [skip] changes; text that becomes empty goes. [s]: we are inside such an element *)
Inductive tidied (skip : list str) : bool -> list node -> list node -> Prop :=
| td_nil s : tidied skip s [] []
| td_gone d l l' : solid_chars d = [] -> tidied skip false l l' -> tidied skip false (NText d :: l) l'
| td_text d d' l l' : solid_chars d' = solid_chars d -> single_spaced d' -> tidied skip false l l' -> tidied skip false (NText d :: l) (NText d' :: l')
| td_skipped d l l' : tidied skip true l l' -> tidied skip true (NText d :: l) (NText d :: l')
| td_comment s d l l' : tidied skip s l l' -> tidied skip s (NComment d :: l) (NComment d :: l')
| td_pi s d l l' : tidied skip s l l' -> tidied skip s (NPI d :: l) (NPI d :: l')
| td_doctype s d l l' : tidied skip s l l' -> tidied skip s (NDoctype d :: l) (NDoctype d :: l')
| td_document s cs cs' l l' : tidied skip s cs cs' -> tidied skip s l l' -> tidied skip s (NDocument cs :: l) (NDocument cs' :: l')
| td_element s name ns attrs cs cs' l l' : tidied skip (s || in_strs (lower name) skip) cs cs' -> tidied skip s l l' ->
    tidied skip s (NElem name ns attrs cs None :: l) (NElem name ns attrs cs' None :: l')
| td_template s name ns attrs cs cs' tc tc' l l' : tidied skip (s || in_strs (lower name) skip) cs cs' -> tidied skip (s || in_strs (lower name) skip) tc tc' ->
    tidied skip s l l' -> tidied skip s (NElem name ns attrs cs (Some tc) :: l) (NElem name ns attrs cs' (Some tc') :: l').
Inductive tidied_root (skip : list str) : node -> node -> Prop :=
| tr_document cs cs' : tidied skip false cs cs' -> tidied_root skip (NDocument cs) (NDocument cs')
| tr_element name ns attrs cs cs' : tidied skip false cs cs' -> tidied_root skip (NElem name ns attrs cs None) (NElem name ns attrs cs' None)
| tr_template name ns attrs cs cs' tc tc' : tidied skip false cs cs' -> tidied skip false tc tc' ->
    tidied_root skip (NElem name ns attrs cs (Some tc)) (NElem name ns attrs cs' (Some tc'))
| tr_leaf n : (match n with NText _ | NComment _ | NPI _ | NDoctype _ => True | _ => False end) -> tidied_root skip n n.

(* m is below n, and no element on the way (m included) is named in [skip] *)
Inductive visible (skip : list str) (m : node) : node -> Prop :=
| vi_self : (match m with NElem name _ _ _ _ => in_strs (lower name) skip = false | _ => True end) -> visible skip m m
| vi_document c cs : In c cs -> visible skip m c -> visible skip m (NDocument cs)
| vi_child c name ns attrs cs tc : in_strs (lower name) skip = false -> In c cs -> visible skip m c -> visible skip m (NElem name ns attrs cs tc)
| vi_template c name ns attrs cs l : in_strs (lower name) skip = false -> In c l -> visible skip m c -> visible skip m (NElem name ns attrs cs (Some l)).

(* a sibling that shows something *)
Definition shows (n : node) : bool :=
  match n with
  | NText d => match d with [] => false | _ => true end
  | NComment _ | NPI _ | NDocument _ => false
  | NDoctype _ => true
  | NElem name _ attrs _ _ => negb (invisible name attrs)
  end.
Definition breaks (blocks : list str) (n : node) : bool :=
  match n with
  | NElem name _ _ _ _ => str_eqb (lower name) (u "br") || in_strs (lower name) blocks
  | NDoctype _ => in_strs (u "!doctype") blocks
  | _ => false
  end.
(* what comes before is the start of the line: nothing shown at all, or a br or block last *)
Definition line_start (blocks : list str) (before : list node) : Prop :=
  (forall x, In x before -> shows x = false) \/
  (exists a b after_it, before = a ++ b :: after_it /\ shows b = true /\ breaks blocks b = true /\ forall x, In x after_it -> shows x = false).

(* ---------- PruneEmpty ---------- *)
(* "Empty means there are no element children and no non-whitespace text" *)
Definition blank_text (strip_whitespace : bool) (d : str) : Prop := if strip_whitespace then strip d = [] else d = [].
Definition blank (strip_whitespace : bool) (l : list node) : Prop :=
  forall c, In c l -> match c with NText d => blank_text strip_whitespace d | NComment _ | NPI _ | NDocument _ => True | NDoctype _ | NElem _ _ _ _ _ => False end.
Definition is_void (name : str) : Prop := In (lower name) (map u
  ["area"; "base"; "br"; "col"; "embed"; "hr"; "img"; "input"; "link"; "meta"; "param"; "source"; "track"; "wbr"]%string).
Definition empty_element (strip_whitespace : bool) (n : node) : Prop :=
  match n with
  | NElem name ns _ cs tc => ~ (ns = Some (u "html") /\ is_void name) /\ blank strip_whitespace cs /\ (forall l, tc = Some l -> blank strip_whitespace l)
  | _ => False
  end.
(* Elements that have become empty and match a selector, asked after their content has been pruned, go; everything else stays, in order.
   [sels]: the selectors with their strip_whitespace flags *)
Inductive pruned (sels : list ((node -> bool) * bool)) : list node -> list node -> Prop :=
| pr_nil : pruned sels [] []
| pr_gone n n' l l' : pruned_inside sels n n' -> (exists sel strip_ws, In (sel, strip_ws) sels /\ sel n' = true /\ empty_element strip_ws n') -> pruned sels l l' -> pruned sels (n :: l) l'
| pr_stays n n' l l' : pruned_inside sels n n' -> ~ (exists sel strip_ws, In (sel, strip_ws) sels /\ sel n' = true /\ empty_element strip_ws n') -> pruned sels l l' -> pruned sels (n :: l) (n' :: l')
with pruned_inside (sels : list ((node -> bool) * bool)) : node -> node -> Prop :=
| pi_leaf n : (match n with NText _ | NComment _ | NPI _ | NDoctype _ => True | _ => False end) -> pruned_inside sels n n
| pi_document cs cs' : pruned sels cs cs' -> pruned_inside sels (NDocument cs) (NDocument cs')
| pi_element name ns attrs cs cs' : pruned sels cs cs' -> pruned_inside sels (NElem name ns attrs cs None) (NElem name ns attrs cs' None)
| pi_template name ns attrs cs cs' tc tc' : pruned sels cs cs' -> pruned sels tc tc' -> pruned_inside sels (NElem name ns attrs cs (Some tc)) (NElem name ns attrs cs' (Some tc')).
(* text that is not empty (not blank) *)
Definition text_ok (b : bool) (d : str) : bool := match (if b then strip d else d) with [] => false | _ => true end.
(* no document inside the tree *)
Definition plain (n : node) : Prop := forall m cs, within m n -> m <> NDocument cs.
