(* SPECIFICATION for C67: the rules of the HTML standard (https://html.spec.whatwg.org/multipage/parsing.html) for the tags of tables: the insertion modes "in table", "in caption",
   "in column group", "in table body", "in row", "in cell", with what "in body" and foreign content say of these tags.  The state is the insertion mode, the stack of open
   elements (the current node first) and the list of active formatting elements (the last one first) *)
From Coq Require Import List Arith Bool String.
From Verif Require Import Str.
From Verif Require Import AaaModel GuardModel CloseModel CloseSpec TableModel.
Import ListNotations.
Open Scope string_scope. Open Scope list_scope. Open Scope nat_scope.

Inductive mode := InBody | InTable | InCaption | InColgroup | InTableBody | InRow | InCell.
Record state := State { md : mode; sst : stack; sfm : list mark }.
Inductive tag := StartTag (name : str) (self_closing : bool) | EndTag (name : str).

Definition html_one_of (l : list string) (e : el) : bool := html e && one_of l (en e).
(* 13.2.4.2 "has an element in table scope" *)
Definition in_table_scope (p : el -> bool) (l : stack) : bool := reaches p (html_one_of ["html"; "table"; "template"]) l.
(* 13.2.6.4.9 "clear the stack back to a table (table body, table row) context" *)
Fixpoint clear_back (l : list string) (k : stack) : stack := match k with [] => [] | e :: t => if html_one_of (l ++ ["template"; "html"]) e then k else clear_back l t end.
Definition table_context : list string := ["table"].
Definition body_context : list string := ["tbody"; "tfoot"; "thead"].
Definition row_context : list string := ["tr"].
(* 13.2.4.3 "clear the list of active formatting elements up to the last marker" *)
Fixpoint clear_formatting (l : list mark) : list mark := match l with [] => [] | Marker :: t => t | Entry _ :: t => clear_formatting t end.
(* 13.2.4.1 "reset the insertion mode appropriately", for a document with no template and no select rule *)
Fixpoint reset (l : stack) : mode :=
  match l with
  | [] => InBody
  | e :: t =>
    if html_one_of ["td"; "th"] e then InCell else if is "tr" e then InRow else if html_one_of ["tbody"; "thead"; "tfoot"] e then InTableBody
    else if is "caption" e then InCaption else if is "colgroup" e then InColgroup else if is "table" e then InTable else if is "body" e then InBody else reset t
  end.
Definition node (name : str) : el := El name Html false.
(* what a rule does: the token is done with, or is processed again.  The elements made, each with the stack its parent is on top of *)
Inductive outcome := Done (s : state) (m : made) | Again (s : state) (m : made).
Definition ignore (s : state) : outcome := Done s [].
Definition inserted (name : str) (l : stack) : stack := node name :: l.

(* 13.2.6.4.7 "in body" *)
Definition in_body (quirks : bool) (t : tag) (s : state) : outcome :=
  match t with
  | StartTag n _ =>
    if one_of ["table"] n then
      let l := if quirks then sst s else close_p (sst s) in
      Done (State InTable (inserted n l) (sfm s)) [(node n, l)]
    else ignore s
  | EndTag n => let '(l, m) := std_body_end n (sst s) in Done (State (md s) l (sfm s)) m
  end.
(* 13.2.6.4.9 "in table" *)
Definition in_table (quirks : bool) (t : tag) (s : state) : outcome :=
  let l := clear_back table_context (sst s) in
  match t with
  | StartTag n _ =>
    if one_of ["caption"] n then Done (State InCaption (inserted n l) (Marker :: sfm s)) [(node n, l)]
    else if one_of ["colgroup"] n then Done (State InColgroup (inserted n l) (sfm s)) [(node n, l)]
    else if one_of ["col"] n then Again (State InColgroup (inserted (u "colgroup") l) (sfm s)) [(node (u "colgroup"), l)]
    else if one_of ["tbody"; "tfoot"; "thead"] n then Done (State InTableBody (inserted n l) (sfm s)) [(node n, l)]
    else if one_of ["td"; "th"; "tr"] n then Again (State InTableBody (inserted (u "tbody") l) (sfm s)) [(node (u "tbody"), l)]
    else if one_of ["table"] n then
      if in_table_scope (is "table") (sst s) then let l := pop_until (is "table") (sst s) in Again (State (reset l) l (sfm s)) [] else ignore s
    else ignore s
  | EndTag n =>
    if one_of ["table"] n then
      if in_table_scope (is "table") (sst s) then let l := pop_until (is "table") (sst s) in Done (State (reset l) l (sfm s)) [] else ignore s
    else ignore s
  end.
(* 13.2.6.4.11 "in caption" *)
Definition in_caption (quirks : bool) (t : tag) (s : state) : outcome :=
  let closed := State InTable (pop_until (is "caption") (generate never (sst s))) (clear_formatting (sfm s)) in
  let scope := in_table_scope (is "caption") (sst s) in
  match t with
  | StartTag n _ =>
    if one_of ["caption"; "col"; "colgroup"; "tbody"; "td"; "tfoot"; "th"; "thead"; "tr"] n then if scope then Again closed [] else ignore s
    else in_body quirks t s
  | EndTag n =>
    if one_of ["caption"] n then if scope then Done closed [] else ignore s
    else if one_of ["table"] n then if scope then Again closed [] else ignore s
    else if one_of ["col"; "colgroup"; "tbody"; "td"; "tfoot"; "th"; "thead"; "tr"] n then ignore s
    else in_body quirks t s
  end.
(* 13.2.6.4.12 "in column group" *)
Definition in_colgroup (t : tag) (s : state) : outcome :=
  let out (o : state -> outcome) := match sst s with e :: l => if is "colgroup" e then o (State InTable l (sfm s)) else ignore s | [] => ignore s end in
  match t with
  | StartTag n _ => if one_of ["col"] n then Done s [(node n, sst s)] else out (fun s => Again s [])
  | EndTag n => if one_of ["colgroup"] n then out (fun s => Done s []) else if one_of ["col"] n then ignore s else out (fun s => Again s [])
  end.
(* 13.2.6.4.13 "in table body" *)
Definition in_table_body (quirks : bool) (t : tag) (s : state) : outcome :=
  let l := clear_back body_context (sst s) in
  let left_section := State InTable (tl l) (sfm s) in
  let section := in_table_scope (html_one_of ["tbody"; "thead"; "tfoot"]) (sst s) in
  match t with
  | StartTag n _ =>
    if one_of ["tr"] n then Done (State InRow (inserted n l) (sfm s)) [(node n, l)]
    else if one_of ["th"; "td"] n then Again (State InRow (inserted (u "tr") l) (sfm s)) [(node (u "tr"), l)]
    else if one_of ["caption"; "col"; "colgroup"; "tbody"; "tfoot"; "thead"] n then if section then Again left_section [] else ignore s
    else in_table quirks t s
  | EndTag n =>
    if one_of ["tbody"; "tfoot"; "thead"] n then if in_table_scope (element n) (sst s) then Done left_section [] else ignore s
    else if one_of ["table"] n then if section then Again left_section [] else ignore s
    else if one_of ["caption"; "col"; "colgroup"; "td"; "th"; "tr"] n then ignore s
    else in_table quirks t s
  end.
(* 13.2.6.4.14 "in row" *)
Definition in_row (quirks : bool) (t : tag) (s : state) : outcome :=
  let l := clear_back row_context (sst s) in
  let left_row := State InTableBody (tl l) (sfm s) in
  let row := in_table_scope (is "tr") (sst s) in
  match t with
  | StartTag n _ =>
    if one_of ["th"; "td"] n then Done (State InCell (inserted n l) (Marker :: sfm s)) [(node n, l)]
    else if one_of ["caption"; "col"; "colgroup"; "tbody"; "tfoot"; "thead"; "tr"] n then if row then Again left_row [] else ignore s
    else in_table quirks t s
  | EndTag n =>
    if one_of ["tr"] n then if row then Done left_row [] else ignore s
    else if one_of ["table"] n then if row then Again left_row [] else ignore s
    else if one_of ["tbody"; "tfoot"; "thead"] n then if in_table_scope (element n) (sst s) then if row then Again left_row [] else ignore s else ignore s
    else if one_of ["caption"; "col"; "colgroup"; "td"; "th"] n then ignore s
    else in_table quirks t s
  end.
(* 13.2.6.4.15 "in cell" *)
Definition in_cell (quirks : bool) (t : tag) (s : state) : outcome :=
  let closed := State InRow (pop_until (html_one_of ["td"; "th"]) (generate never (sst s))) (clear_formatting (sfm s)) in
  match t with
  | StartTag n _ =>
    if one_of ["caption"; "col"; "colgroup"; "tbody"; "td"; "tfoot"; "th"; "thead"; "tr"] n then Again closed []
    else in_body quirks t s
  | EndTag n =>
    if one_of ["td"; "th"] n then
      if in_table_scope (element n) (sst s) then Done (State InRow (pop_until (element n) (generate never (sst s))) (clear_formatting (sfm s))) [] else ignore s
    else if one_of ["caption"; "col"; "colgroup"] n then ignore s
    else if one_of ["table"; "tbody"; "tfoot"; "thead"; "tr"] n then if in_table_scope (element n) (sst s) then Again closed [] else ignore s
    else in_body quirks t s
  end.
Definition by_mode (quirks : bool) (t : tag) (s : state) : outcome :=
  match md s with
  | InBody => in_body quirks t s | InTable => in_table quirks t s | InCaption => in_caption quirks t s | InColgroup => in_colgroup t s
  | InTableBody => in_table_body quirks t s | InRow => in_row quirks t s | InCell => in_cell quirks t s
  end.
(* the tag is processed again until it is done with: eight times are enough (a theorem), None would mean they were not *)
Fixpoint process (fuel : nat) (quirks : bool) (t : tag) (s : state) : option (state * made) :=
  match fuel with
  | 0 => None
  | S f => match by_mode quirks t s with
           | Done s m => Some (s, m)
           | Again s m => match process f quirks t s with Some (s', m') => Some (s', m ++ m') | None => None end
           end
  end.
Definition html_rules : bool -> tag -> state -> option (state * made) := process 8.
(* 13.2.6 and 13.2.6.5: foreign content *)
Definition with_sst (l : stack) (s : state) : state := State (md s) l (sfm s).
Definition std_tag (quirks : bool) (t : tag) (s : state) : option (state * made) :=
  match t with
  | StartTag n sc =>
    if by_html_rules n (sst s) then html_rules quirks t s
    else if breaks_out n then html_rules quirks t (with_sst (leave_foreign (sst s)) s)
    else match sst s with e :: _ => let '(l, m) := opened n false sc (es e) (sst s) in Some (with_sst l s, m) | [] => Some (s, []) end
  | EndTag n =>
    match sst s with
    | e :: _ => if html e then html_rules quirks t s else match foreign_loop n (sst s) with Popped l => Some (with_sst l s, []) | Html_rules => html_rules quirks t s end
    | [] => Some (s, [])
    end
  end.

(* ---- histories ---- *)
Definition ten : list string := ["caption"; "col"; "colgroup"; "table"; "tbody"; "td"; "tfoot"; "th"; "thead"; "tr"].
(* everything else that happens in a document, in raw mode with no template and no frameset: other elements are opened and closed, in cells, in captions, and in tables
   where they are foster parented.  That does not open or close an element of a table; elements below may only lose formatting elements (the start tag of a removes an open a).  The names of foreign elements have no capital letters, but for those of SVG *)
Definition content (e : el) : bool :=
  if html e then negb (one_of ["html"; "head"; "body"; "frameset"; "template"; "table"; "caption"; "colgroup"; "col"; "tbody"; "thead"; "tfoot"; "tr"; "td"; "th"] (en e)) else negb (breaks_out (en e)) && (negb (one_of ten (lower (en e))) || one_of ten (en e)).
Fixpoint based (l : stack) : stack := match l with [] => [] | e :: t => if content e then based t else l end.
Inductive thinned : stack -> stack -> Prop :=
  | thin_nil : thinned [] []
  | thin_keep : forall e l l', thinned l l' -> thinned (e :: l) (e :: l')
  | thin_drop : forall e l l', formatting e = true -> thinned l l' -> thinned (e :: l) l'.
(* no p is open in another, with no end of scope between: C66_paragraphs_partial *)
Fixpoint single_p (l : stack) : Prop := match l with [] => True | e :: t => (is "p" e = true -> in_scope (is "p") ["button"] t = false) /\ single_p t end.
(* Leave: something that is not white space, a comment, a col or a template comes in a column group *)
Inductive event := Tag (t : tag) | Leave_group | Content (l : stack) (f : list mark) (flag : bool).
Definition tag_of (t : tag) : str := match t with StartTag n _ => n | EndTag n => n end.

(* where the parser does not follow the standard: what the theorems leave out *)
(* above the innermost table, a foreign element with the name of a table's element *)
Fixpoint clean (l : stack) : bool := match l with [] => true | e :: t => is "table" e || ((html e || negb (one_of ten (lower (en e)))) && clean t) end.
Definition cell_or_caption (e : el) : bool := html_one_of ["td"; "th"; "caption"] e.
Definition has_table (l : stack) : bool := existsb (is "table") l.
Definition ok_tag (t : tag) (s : state) : bool :=
  let l := sst s in
  match t with
  | StartTag n _ =>
    negb (by_html_rules n l || breaks_out n)
    || clean l
       && (negb (one_of ["table"] n) || negb (has_table l) || negb (reaches point (html_one_of ten) l) || negb (reaches cell_or_caption (is "table") l))
       && (negb (one_of ["td"; "th"] n) || match md s with InRow => negb (reaches point (html_one_of ten) l) | _ => true end)
       && (negb (one_of ["td"; "th"; "tr"] n) || has_table l || foreign_current l || forallb html l)
       && (negb (one_of ["colgroup"] n) || negb (foreign_current l))
  | EndTag n =>
    match l with e :: _ => negb (html e) && match foreign_loop n l with Popped _ => true | Html_rules => false end | [] => true end
    || clean l
       && negb (reaches point html l && reaches (element n) html l)
       && negb (one_of ["col"] n && match md s with InColgroup => true | _ => false end)
       && (negb (existsb (is "select") l) || reaches (element n) (is "table") l || negb (existsb (fun e => str_eqb (en e) n) l))
  end.
Definition ok_event (e : event) (s : state) : Prop :=
  match e with
  | Tag t => one_of ten (tag_of t) = true /\ ok_tag t s = true
  | Leave_group => match sst s with e :: _ => html e || negb (named (u "colgroup") e) = true | [] => True end
  | Content l _ _ => md s <> InColgroup /\ exists above, exists below, l = above ++ below /\ forallb content above = true /\ thinned (based (sst s)) below /\ well_placed l /\ single_p l
  end.
Definition std_event (quirks : bool) (e : event) (s : state) : option (state * made) :=
  match e with
  | Tag t => std_tag quirks t s
  | Leave_group => match md s with InColgroup => Some (State InTable (tl (sst s)) (sfm s), []) | _ => Some (s, []) end
  | Content l f _ => Some (State (md s) l f, [])
  end.
Fixpoint by_standard (quirks : bool) (es : list event) (s : state) : option (state * made) :=
  match es with
  | [] => Some (s, [])
  | e :: es => match std_event quirks e s with
               | Some (s, m) => match by_standard quirks es s with Some (s, m') => Some (s, m ++ m') | None => None end
               | None => None
               end
  end.
Definition code_event (quirks : bool) (order : list str) (e : event) (s : st) : st * made :=
  match e with
  | Tag (StartTag n sc) => table_start quirks order n sc s
  | Tag (EndTag n) => (table_end n s, [])
  | Leave_group => (leave_colgroup s, [])
  | Content l f flag => (St l flag f, [])
  end.
Fixpoint by_parser (quirks : bool) (order : list str) (es : list event) (s : st) : st * made :=
  match es with [] => (s, []) | e :: es => let '(s, m) := code_event quirks order e s in let '(s, m') := by_parser quirks order es s in (s, m ++ m') end.
(* along the standard's own run *)
Fixpoint ok_events (quirks : bool) (es : list event) (s : state) : Prop :=
  match es with [] => True | e :: es => ok_event e s /\ match std_event quirks e s with Some (s, _) => ok_events quirks es s | None => True end end.
(* a caption closed by another tag, and the end of a row or section with an integration point open in the cell: the formatting list is not kept as in the standard *)
Definition ok_marks (e : event) (s : state) : bool :=
  match e with
  | Tag t =>
    match md s with
    | InCaption => match t with StartTag n _ => one_of ["table"] n || negb (by_html_rules n (sst s)) | EndTag n => negb (one_of ["table"] n) end
    | InCell => match t with EndTag n => negb (one_of ["tr"; "tbody"; "tfoot"; "thead"] n) || negb (reaches point cell_or_caption (sst s)) | _ => true end
    | _ => true
    end
  | _ => true
  end.
Fixpoint all_marks (quirks : bool) (es : list event) (s : state) : bool :=
  match es with [] => true | e :: es => ok_marks e s && match std_event quirks e s with Some (s, _) => all_marks quirks es s | None => true end end.
Definition begun : state := State InBody body_open [].
Definition parser_begun : st := St body_open false [].
