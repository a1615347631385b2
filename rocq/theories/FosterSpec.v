(* SPECIFICATION for C69: "the appropriate place for inserting a node" (13.2.6.1), "insert a character", "insert a foreign/HTML element" and the insertion modes "in table" and "in table text"
   (13.2.6.4.9, 13.2.6.4.10) of the HTML standard, one character at a time.  A place is in front of a child, or after the last child: no indices. *)
From Coq Require Import List Arith Bool String.
From Verif Require Import Str.
From Verif Require Import FosterModel.
Import ListNotations.
Open Scope string_scope. Open Scope list_scope. Open Scope nat_scope.

Definition one_of (l : list string) (n : str) : bool := in_strs n (map u l).
(* the tree, the open elements, what "reconstruct the active formatting elements" has to reopen *)
Record state := State { tree_of : tree; stack_of : list oel; closed_formatting : list str }.
Inductive place := Last_in (p : nat) | Before (p k : nat).
Definition is (n : string) (e : oel) : bool := ohtml e && str_eqb (oname e) (u n).
(* 13.2.6.1, step 2 with foster parenting: whichever of template and table was opened last *)
Fixpoint foster_place (t : tree) (l : list oel) : place :=
  match l with
  | [] => Last_in 0
  | e :: below =>
    match ocontent e with
    | Some c => Last_in c
    | None =>
      if is "table" e then
        match up t (oid e), below with
        | Some p, _ => Before p (oid e)
        | None, above :: _ => Last_in (oid above)
        | None, [] => Last_in (oid e)
        end
      else match below with [] => Last_in (oid e) | _ => foster_place t below end
    end
  end.
Definition table_part (e : oel) : bool := ohtml e && one_of ["table"; "tbody"; "tfoot"; "thead"; "tr"] (oname e).
Definition appropriate_place (foster : bool) (t : tree) (l : list oel) : place :=
  match l with
  | [] => Last_in 0
  | e :: _ => if foster && table_part e then foster_place t l else Last_in (match ocontent e with Some c => c | None => oid e end)
  end.

(* a node put in front of another, a character too: it goes to the text just before the place, if there is one *)
Fixpoint node_before (k : nat) (x : item) (l : list item) : list item :=
  match l with [] => [x] | Nod j :: r => if j =? k then x :: l else Nod j :: node_before k x r | Txt s :: r => Txt s :: node_before k x r end.
Fixpoint char_last (c : N) (l : list item) : list item :=
  match l with [] => [Txt [c]] | [Txt s] => [Txt (s ++ [c])] | x :: r => x :: char_last c r end.
Fixpoint char_before (k : nat) (c : N) (l : list item) : list item :=
  match l with
  | [] => [Txt [c]]
  | Nod j :: r => if j =? k then Txt [c] :: l else Nod j :: char_before k c r
  | Txt s :: r => match r with Nod j :: _ => if j =? k then Txt (s ++ [c]) :: r else Txt s :: char_before k c r | _ => Txt s :: char_before k c r end
  end.
Definition parent_of (w : place) : nat := match w with Last_in p | Before p _ => p end.
Definition put_node (w : place) (x : nat) (t : tree) : tree :=
  match w with Last_in p => set_ks t p (ks t p ++ [Nod x]) | Before p k => set_ks t p (node_before k (Nod x) (ks t p)) end.
Definition put_char (w : place) (c : N) (t : tree) : tree :=
  match w with Last_in p => set_ks t p (char_last c (ks t p)) | Before p k => set_ks t p (char_before k c (ks t p)) end.

(* insert an element *)
Definition insert (foster : bool) (name : str) (html void : bool) (s : state) : state :=
  let w := appropriate_place foster (tree_of s) (stack_of s) in
  let k := List.length (tree_of s) in
  let t := put_node w k (tree_of s ++ [Node [] (Some (parent_of w))]) in
  if html && str_eqb name (u "template")
  then State (t ++ [Node [] None]) (Oel k name html (Some (Datatypes.S k)) :: stack_of s) (closed_formatting s)
  else State t (if void then stack_of s else Oel k name html None :: stack_of s) (closed_formatting s).
Definition reconstruct (s : state) : state := fold_left (fun s n => insert true n true false s) (closed_formatting s) (State (tree_of s) (stack_of s) []).
Definition insert_char (foster : bool) (c : N) (s : state) : state := State (put_char (appropriate_place foster (tree_of s) (stack_of s)) c (tree_of s)) (stack_of s) (closed_formatting s).
(* "in body", any character but null (with foster parenting, as "anything else" of "in table" has it; where the current node is no part of a table that makes no difference) *)
Definition body_char (s : state) (c : N) : state := insert_char true c (reconstruct s).
(* tab, line feed, form feed, carriage return, space *)
Definition white (c : N) : bool := existsb (N.eqb c) [9; 10; 12; 13; 32]%N.
(* all character tokens up to the next token that is not one.  In a table: "in table text" *)
Definition characters (text : str) (s : state) : state :=
  if match stack_of s with e :: _ => table_part e | [] => false end && forallb white text
  then fold_left (fun s c => insert_char false c s) text s
  else fold_left body_char text s.
(* the start tags that "in table" and the modes of rows and sections do not hand to "in body": their own, and those they insert as "in head" does; form; a hidden input *)
Definition not_fostered (name : str) (hidden : bool) : bool :=
  one_of ["caption"; "colgroup"; "col"; "tbody"; "tfoot"; "thead"; "tr"; "td"; "th"; "table"; "style"; "script"; "template"; "form"] name || hidden.
(* the text of a run: all its pieces *)
Definition text_of (pieces : list (option (str * str))) : str := flat_map (fun p => match p with Some (_, text) => text | None => [] end) pieces.
Definition standard_event (s : state) (e : event) : state :=
  match e with
  | Run l => characters (text_of l) s
  | Start name html void hidden => insert (negb (not_fostered name hidden)) name html void s
  | Comment => let w := appropriate_place false (tree_of s) (stack_of s) in State (put_node w (List.length (tree_of s)) (tree_of s ++ [Node [] (Some (parent_of w))])) (stack_of s) (closed_formatting s)
  | Closed n => State (tree_of s) (skipn n (stack_of s)) (closed_formatting s)
  | Formatting l => State (tree_of s) (stack_of s) l
  | Reopen => reconstruct s
  end.
Definition standard_run (es : list event) (s : state) : state := fold_left standard_event es s.
Definition begun : state := State [Node [Nod 1] None; Node [] (Some 0)] [Oel 1 (u "body") true None; Oel 0 (u "html") true None] [].

(* ---- the histories the theorems speak of ---- *)
(* a start tag: of table or col, only where a table may hold one (C67_parents); parts of tables only with a table or template open; no foreign element is called table; template is one of HTML's own, and not void *)
Definition ok_start (name : str) (html void hidden : bool) (s : state) : Prop :=
  (one_of ["table"; "col"] name = true -> match stack_of s with e :: _ => table_part e = false | [] => False end) /\
  (one_of ["tbody"; "tfoot"; "thead"; "tr"] name = true -> existsb (fun e => is "table" e || is "template" e) (stack_of s) = true) /\
  (str_eqb name (u "table") = true -> html = true).
(* a run of text with white space, and what is not, as it stands in the input: *)
Definition plain_piece (p : option (str * str)) : Prop := match p with Some (raw, text) => text <> [] /\ forallb white raw = forallb white text | None => False end.
(* no white space alone after other text (where a < stands in between) *)
Fixpoint blanks_first (seen : bool) (l : list (option (str * str))) : bool :=
  match l with
  | Some (_, text) :: r => if forallb white text then negb seen && blanks_first seen r else blanks_first true r
  | None :: r => blanks_first seen r
  | [] => true
  end.
Definition starts_blank (l : list (option (str * str))) : bool := match l with Some (_, text) :: _ => forallb white text | _ => false end.
Definition ok_run (l : list (option (str * str))) (s : state) : Prop :=
  Forall plain_piece l /\
  match stack_of s with
  | e :: _ =>
    (table_part e = true ->
      (* nothing is to be reopened: white space comes first *)
      (closed_formatting s = [] -> blanks_first false l = true) /\
      (* something is: either all is white space, or the text does not begin with a piece of white space *)
      (closed_formatting s <> [] -> forallb white (text_of l) = true \/ starts_blank l = false)) /\
    (* what C64 leaves out: something to reopen in a caption, in a foreign element, or directly in a template *)
    (closed_formatting s <> [] -> one_of ["caption"; "template"] (oname e) = false /\ ohtml e = true)
  | [] => False
  end.
Definition ok_event (e : event) (s : state) : Prop :=
  match e with
  | Run l => ok_run l s
  | Start name html void hidden => ok_start name html void hidden s
  | Closed n => n < List.length (stack_of s)
  | Formatting l => Forall (fun n => not_fostered n false = false /\ one_of ["table"; "tbody"; "tfoot"; "thead"; "tr"] n = false) l
  | _ => True
  end.
Fixpoint ok_events (es : list event) (s : state) : Prop := match es with [] => True | e :: r => ok_event e s /\ ok_events r (standard_event s e) end.
