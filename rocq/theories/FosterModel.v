(* MODEL of where the parser puts text and elements while a table is open: parser/engine.py _append_text (2236-2469), _foster_parent_for (5238-5290), _insert_at (4399-4413),
   _insert_raw_element (4238-4288) and the token loop that feeds them (2020-2206), in raw mode, for a document whose body has begun.
   Simplifications: the tree is a list of nodes, and a node is its position in it; each node has its children and its parent.  The document node, attributes, positions, framesets,
   column groups (C67), foreign text, parser-only templates (which raw mode has not) are left out.  Which elements tags close is not described here (C66, C67): the history says it.
   _template_modes is not empty exactly if a template is open. *)
From Coq Require Import List Arith Bool String.
From Verif Require Import Str.
Import ListNotations.
Open Scope string_scope. Open Scope list_scope. Open Scope nat_scope.

(* dom/__init__.py: a child is a Text or another node *)
Inductive item := Txt (s : str) | Nod (k : nat).
Record node := Node { kids : list item; parent : option nat }.
Notation tree := (list node).
Definition ks (t : tree) (p : nat) : list item := match nth_error t p with Some n => kids n | None => [] end.
Definition up (t : tree) (p : nat) : option nat := match nth_error t p with Some n => parent n | None => None end.
Fixpoint set_ks (t : tree) (p : nat) (l : list item) : tree :=
  match t, p with [], _ => [] | n :: r, 0 => Node l (parent n) :: r | n :: r, Datatypes.S p => n :: set_ks r p l end.

(* an element on the stack of open elements; ocontent: the contents of an html template *)
Record oel := Oel { oid : nat; oname : str; ohtml : bool; ocontent : option nat }.
(* the tree, the stack (current element first), the formatting elements that are to be reopened (C64; empty if the flag is clear), _foster_next_table_whitespace *)
Record fst := Fst { tr : tree; open : list oel; todo : list str; pend : nat }.

(* engine.py:204 _TABLE_FOSTER_TARGETS *)
Definition targets : list str := map u ["table"; "tbody"; "tfoot"; "thead"; "tr"].
(* core/constants.py:479-491 TABLE_ALLOWED_CHILDREN, and form (engine.py:679) *)
Definition allowed_children : list str := map u ["caption"; "colgroup"; "tbody"; "tfoot"; "thead"; "tr"; "td"; "th"; "script"; "template"; "style"; "form"].
(* text.strip(_SPACE) == "" *)
Definition blank (s : str) : bool := forallb is_html_space s.

(* engine.py:1880-1889 _current_parent *)
Definition current_parent (l : list oel) : nat := match l with e :: _ => match ocontent e with Some c => c | None => oid e end | [] => 0 end.
Definition parent_name (l : list oel) : str := match l with e :: _ => match ocontent e with Some _ => u "#document-fragment" | None => oname e end | [] => u "#document" end.
Definition parent_html (l : list oel) : bool := match l with e :: _ => match ocontent e with Some _ => true | None => ohtml e end | [] => true end.

(* engine.py:4427-4434 _find_open_index, 1906-1908 _open_template_index: the stack from the element found down; its length is the index *)
Fixpoint find_open (p : oel -> bool) (l : list oel) : list oel := match l with [] => [] | e :: t => if p e then l else find_open p t end.
(* list.index of an element *)
Fixpoint index_of (k : nat) (l : list item) : option nat :=
  match l with
  | [] => None
  | Nod j :: t => if j =? k then Some 0 else option_map Datatypes.S (index_of k t)
  | Txt _ :: t => option_map Datatypes.S (index_of k t)
  end.
Definition last_is (k : nat) (l : list item) : bool := match rev l with Nod j :: _ => j =? k | _ => false end.
(* engine.py:5238-5290 _foster_parent_for *)
Definition foster_for (for_tag : option str) (t : tree) (l : list oel) : option (nat * nat) :=
  if negb (in_strs (parent_name l) targets) || negb (parent_html l) then None
  else if match for_tag with Some n => in_strs n allowed_children | None => false end then None
  else
    let table := find_open (fun e => str_eqb (oname e) (u "table")) l in
    let template := find_open (fun e => match ocontent e with Some _ => true | None => false end) l in
    let table := if (0 <? List.length table) && (0 <? List.length template) && (List.length table <? List.length template) then [] else table in
    match table with
    | [] => match template with e :: _ => match ocontent e with Some c => Some (c, List.length (ks t c)) | None => None end | [] => None end
    | e :: _ =>
      match up t (oid e) with
      | None => None
      | Some q => if last_is (oid e) (ks t q) then Some (q, List.length (ks t q) - 1) else match index_of (oid e) (ks t q) with Some i => Some (q, i) | None => None end
      end
    end.

(* list.insert *)
Definition insert_item (l : list item) (i : nat) (x : item) : list item := firstn i l ++ x :: skipn i l.
Definition set_item (l : list item) (i : nat) (x : item) : list item := firstn i l ++ x :: skipn (Datatypes.S i) l.
(* engine.py:4399-4413 _insert_at *)
Definition insert_at (t : tree) (p i : nat) (x : item) : tree :=
  let l := ks t p in
  set_ks t p
    (match x with
     | Nod _ => insert_item l i x
     | Txt s =>
       match (if 0 <? i then nth_error l (i - 1) else None) with
       | Some (Txt b) => set_item l (i - 1) (Txt (b ++ s))
       | _ => match nth_error l i with Some (Txt a) => set_item l i (Txt (s ++ a)) | _ => insert_item l i x end
       end
     end).
(* engine.py:2457-2463: the text ends the children, or is a new one *)
Definition append_at (t : tree) (p : nat) (s : str) : tree :=
  let l := ks t p in set_ks t p (match rev l with Txt b :: r => rev r ++ [Txt (b ++ s)] | _ => l ++ [Txt s] end).

(* engine.py:4238-4288 _insert_raw_element.  hidden: _is_hidden_input; void: not pushed *)
Definition insert_element (name : str) (html void hidden : bool) (s : fst) : fst :=
  let p := current_parent (open s) in
  let foster := if in_strs (parent_name (open s)) targets && negb (in_strs name allowed_children) && negb hidden then foster_for (Some name) (tr s) (open s) else None in
  let k := List.length (tr s) in
  let t := tr s ++ [Node [] (Some (match foster with Some (q, _) => q | None => p end))] in
  let t := match foster with Some (q, i) => insert_at t q i (Nod k) | None => set_ks t p (ks t p ++ [Nod k]) end in
  if html && str_eqb name (u "template")
  then Fst (t ++ [Node [] None]) (Oel k name html (Some (Datatypes.S k)) :: open s) (todo s) (pend s)
  else Fst t (if void then open s else Oel k name html None :: open s) (todo s) (pend s).
(* engine.py:5960-6090 _reconstruct_active_formatting (C64): each element is inserted at the current parent *)
Definition reopen (s : fst) : fst := fold_left (fun s n => insert_element n true false false s) (todo s) (Fst (tr s) (open s) [] (pend s)).

(* engine.py:2448-2454: the white space inserted just before is taken back *)
Definition take_back (t : tree) (p n : nat) : tree * str :=
  match rev (ks t p) with
  | Txt b :: r =>
    if blank b then
      let remaining := firstn (List.length b - n) b in
      (set_ks t p (rev r ++ (match remaining with [] => [] | _ => [Txt remaining] end)), skipn (List.length b - n) b)
    else (t, [])
  | _ => (t, [])
  end.
(* engine.py:2236-2469 _append_text, for a piece of text: raw as it is in the input, text as it is decoded (2392-2410; C27) *)
Definition append_text (piece : str * str) (s : fst) : fst :=
  let '(raw, text) := piece in
  let pending := pend s in
  let s := Fst (tr s) (open s) (todo s) 0 in
  let s := match todo s with
           | [] => s
           | _ => if negb (str_eqb (parent_name (open s)) (u "caption")) && negb (in_strs (parent_name (open s)) targets && blank raw) then reopen s else s
           end in
  let p := current_parent (open s) in
  match text with
  | [] => s
  | _ =>
    if in_strs (parent_name (open s)) targets && parent_html (open s) then
      if blank text then Fst (append_at (tr s) p text) (open s) (todo s) (pending + List.length text)
      else
        let '(t, before) := if 0 <? pending then take_back (tr s) p pending else (tr s, []) in
        Fst (match foster_for None t (open s) with Some (q, i) => insert_at t q i (Txt (before ++ text)) | None => append_at t p (before ++ text) end) (open s) (todo s) 0
    else Fst (append_at (tr s) p text) (open s) (todo s) 0
  end.

(* What the token loop (2020-2206) meets: a run of character tokens, cut where a < stands that begins no markup, and at </>, which is no token (None; 2037 clears the pending
   white space all the same); a start tag; a comment; open elements closed by tags (C66, C67); what there is to reopen changes (C53, C62, C64); a reopening (before a start tag) *)
Inductive event := Run (pieces : list (option (str * str))) | Start (name : str) (html void hidden : bool) | Comment | Closed (n : nat) | Formatting (l : list str) | Reopen.
(* engine.py:2037, 2070, 2086, 2094, 2161: any token but text clears the pending white space *)
Definition cleared (s : fst) : fst := Fst (tr s) (open s) (todo s) 0.
Definition code_piece (s : fst) (p : option (str * str)) : fst := match p with None => cleared s | Some p => append_text p s end.
Definition code_event (s : fst) (e : event) : fst :=
  let s := cleared s in
  match e with
  | Run l => fold_left code_piece l s
  | Start name html void hidden => insert_element name html void hidden s
  | Comment => Fst (let t := tr s ++ [Node [] (Some (current_parent (open s)))] in set_ks t (current_parent (open s)) (ks t (current_parent (open s)) ++ [Nod (List.length (tr s))])) (open s) (todo s) 0
  | Closed n => Fst (tr s) (skipn n (open s)) (todo s) 0
  | Formatting l => Fst (tr s) (open s) l 0
  | Reopen => reopen s
  end.
Definition code_run (es : list event) (s : fst) : fst := fold_left code_event es s.
(* html and body are open *)
Definition body_begun : fst := Fst [Node [Nod 1] None; Node [] (Some 0)] [Oel 1 (u "body") true None; Oel 0 (u "html") true None] [] 0.
