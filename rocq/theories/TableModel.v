(* MODEL of what the tags of tables open and close: parser/engine.py:3560-4119 (_parse_start_tag) and 2783-3101 (_parse_end_tag) with _repair_table_for_start and its
   helpers (5114-5236), in raw mode, for a document whose body has begun.  The stack of open elements is a list with the current node first, as in CloseModel.v; the document
   below it, which no loop reaches, is left out.  Left out too: templates, framesets, fragments, positions, the flag for reconstruction (C64), where text and
   other elements in a table are put. *)
From Coq Require Import List Arith Bool String.
From Verif Require Import Str.
From Verif Require Import AaaModel GuardModel CloseModel.
Import ListNotations.
Open Scope string_scope. Open Scope list_scope. Open Scope nat_scope.

(* the list of active formatting elements: markers, and entries (C63) of which only the identity matters here; the last one first *)
Inductive mark := Marker | Entry (k : nat).
(* the open elements, _in_colgroup (engine.py:1985-1990), the active formatting elements *)
Record st := St { sk : stack; colg : bool; fm : list mark }.
Definition with_sk (l : stack) (s : st) : st := St l (colg s) (fm s).
Definition with_colg (b : bool) (s : st) : st := St (sk s) b (fm s).

(* engine.py:201-207 *)
Definition section_names : list str := map u ["tbody"; "thead"; "tfoot"].
Definition cell_names : list str := map u ["td"; "th"].
Definition scoped_end_names : list str := map u ["caption"; "table"; "tbody"; "td"; "tfoot"; "th"; "thead"; "tr"].
(* engine.py:83 _ACTIVE_FORMATTING_MARKER_TAGS *)
Definition marker_names : list str := map u ["applet"; "caption"; "marquee"; "object"].
Definition bound_table : list str := [u "table"].

(* engine.py:5222-5236 _clear_active_formatting_to_marker *)
Fixpoint clear_marker (l : list mark) : list mark := match l with [] => [] | Marker :: t => t | Entry _ :: t => clear_marker t end.
Definition cleared (s : st) : st := St (sk s) (colg s) (clear_marker (fm s)).
(* del self._stack[n:], n counted from the bottom *)
Definition keep (n : nat) (l : stack) : stack := skipn (List.length l - n) l.
Definition current_in (names : list str) (l : stack) : bool := match l with e :: _ => name_in names e | [] => false end.
Definition pop_if (names : list str) (l : stack) : stack := if current_in names l then tl l else l.

(* engine.py:5206-5216 _close_table_cell *)
Fixpoint find_cell (l : stack) : option stack :=
  match l with [] => None | e :: t => if named (u "table") e then None else if name_in cell_names e then Some t else find_cell t end.
Definition close_cell (s : st) : st := match find_cell (sk s) with Some t => cleared (with_sk t s) | None => s end.
(* engine.py:5194-5204 _close_stray_table_content_to_section *)
Fixpoint find_section (l : stack) : option stack :=
  match l with
  | [] => None
  | e :: t => if name_in section_names e then Some l
              else if named (u "table") e || name_in cell_names e || named (u "tr") e then None else find_section t
  end.
Definition close_stray (l : stack) : stack := or_same (find_section l) l.
(* engine.py:5123-5125 and the like.  order: the order in which Python goes through the set of names, which may differ from run to run *)
Definition close_row (l : stack) : stack := or_same (close_until (u "tr") bound_table l) l.
Definition close_sections (order : list str) (l : stack) : stack := fold_left (fun l n => or_same (close_until n bound_table l) l) order l.

(* engine.py:4238-4288 _insert_raw_element (CloseModel.insert), with the marker (4286-4287).  No tag of this model is foster parented: each is in
   _table_allowed_children (core/constants.py TABLE_ALLOWED_CHILDREN), but table and col, whose parent is never one of the foster targets (C67_parents) *)
Definition put (name : str) (breaks self_closing : bool) (s : st) : st * made :=
  let '(l, m) := insert name breaks false self_closing (sk s) in
  (St l (colg s) (match m with (e, below) :: _ => if html e && negb (in_strs name void_names) && (in_strs name cell_names || in_strs name marker_names) then Marker :: fm s else fm s | [] => fm s end), m).
Definition putting (name : str) (r : st * made) : st * made := let '(s, m) := r in let '(s, m') := put name false false s in (s, m ++ m').

(* engine.py:5114-5192 _repair_table_for_start *)
Definition repair_table (order : list str) (name : str) (s : st) : st * made :=
  let table := last_pos (named (u "table")) (sk s) in
  let select := last_pos (named (u "select")) (sk s) in
  let s := if negb (table =? 0) && (table <? select) then with_sk (keep (select - 1) (sk s)) s else s in
  let to_table (s : st) := if table =? 0 then s else with_sk (keep table (sk s)) s in
  if in_strs name (map u ["col"; "colgroup"]) then
    let s := close_cell s in
    let s := with_sk (close_sections order (close_row (sk s))) s in
    let s := if negb (current_in (map u ["table"; "colgroup"]) (sk s)) then to_table s else s in
    if str_eqb name (u "col") && current_in [u "table"] (sk s) then
      let '(s, m) := putting (u "colgroup") (s, []) in (with_colg true s, m)
    else (s, [])
  else if str_eqb name (u "caption") || in_strs name section_names then
    let s := close_cell s in
    let s := with_sk (close_sections order (close_row (sk s))) s in
    (if negb (current_in [u "table"] (sk s)) then to_table s else s, [])
  else if str_eqb name (u "tr") then
    let s := close_cell s in
    let s := with_sk (close_stray (close_row (sk s))) s in
    if current_in [u "table"] (sk s) then putting (u "tbody") (s, [])
    else if negb (current_in section_names (sk s)) && negb (table =? 0) then putting (u "tbody") (to_table s, [])
    else (s, [])
  else if in_strs name cell_names then
    let s := close_cell s in
    let s := with_sk (close_stray (sk s)) s in
    let s := match find_before (u "tr") bound_table (sk s) with Some below => with_sk (keep (S (List.length below)) (sk s)) s | None => s end in
    if current_in [u "tr"] (sk s) then (s, [])
    else if current_in [u "table"] (sk s) then putting (u "tr") (putting (u "tbody") (s, []))
    else if current_in section_names (sk s) then putting (u "tr") (s, [])
    else
      let table := last_pos (named (u "table")) (sk s) in
      if table =? 0 then (s, []) else putting (u "tr") (putting (u "tbody") (with_sk (keep table (sk s)) s, []))
  else (s, []).

Definition foreign_current (l : stack) : bool := match l with e :: _ => negb (html e) | [] => false end.
(* engine.py:3560-4119 for the ten tags of tables.  3624-3630 column groups; 3974-4004 cells and rows in HTML inside foreign content; 4024-4032 the repair of the body; 4034-4043 table;
   4045-4068 the others, which are dropped where their parent would not be right; 4107 the insertion *)
Definition table_start (quirks : bool) (order : list str) (name : str) (self_closing : bool) (s : st) : st * made :=
  let breaks := in_strs name breakout_names in
  let s := if foreign_current (sk s) then s
           else if str_eqb name (u "colgroup") then St (pop_if [u "colgroup"] (sk s)) true (fm s)
           else if colg s && negb (str_eqb name (u "col")) then St (pop_if [u "colgroup"] (sk s)) false (fm s)
           else s in
  let ht := html_text name (sk s) in
  if ht && in_strs name (map u ["td"; "th"; "tr"]) && (last_pos (named (u "table")) (sk s) =? 0) && negb (foreign_current (sk s)) && existsb (fun e => negb (html e)) (sk s)
  then put name breaks self_closing (with_sk (keep 1 (sk s)) s)
  else
    let s := if negb ht && negb breaks then s else with_sk (repair quirks name (sk s)) s in
    let s := if str_eqb name (u "table") then
               let table := last_pos (named (u "table")) (sk s) in
               let none n := match find_before (u n) bound_table (sk s) with Some _ => false | None => true end in
               if negb (table =? 0) && none "td" && none "th" && none "caption" then with_sk (keep (table - 1) (sk s)) s else s
             else s in
    if ht && negb (str_eqb name (u "table")) then
      let '(s, m) := repair_table order name s in
      let fits :=
        if str_eqb name (u "caption") then current_in [u "table"] (sk s)
        else if in_strs name (map u ["col"; "colgroup"]) then current_in [u "table"] (sk s) || (str_eqb name (u "col") && current_in [u "colgroup"] (sk s))
        else if in_strs name section_names then current_in [u "table"] (sk s)
        else if str_eqb name (u "tr") then current_in section_names (sk s)
        else current_in [u "tr"] (sk s) in
      if fits then let '(s, m') := put name breaks self_closing s in (s, m ++ m') else (s, m)
    else put name breaks self_closing s.

(* engine.py:4482-4492 _find_open_table_scoped_end_index *)
Fixpoint find_scoped (name : str) (l : stack) : option stack :=
  match l with
  | [] => None
  | e :: t => if html e && named name e then Some t else if html e && named (u "table") e then None else find_scoped name t
  end.
(* engine.py:2783-3101 for the ten end tags: 2832 foreign content, 2905-2935 column groups and cells, 2950-2957 select, 3037-3050 the current node, 3057-3101 the rest *)
Definition table_end (name : str) (s : st) : st :=
  match stays name (sk s) with
  | Stay l => with_sk l s
  | Leave =>
    if str_eqb name (u "colgroup") then St (pop_if [u "colgroup"] (sk s)) false (fm s)
    else
      let s := if colg s && current_in [u "colgroup"] (sk s) then St (tl (sk s)) false (fm s) else s in
      let s := if str_eqb name (u "table") then close_cell (with_colg false s)
               else if str_eqb name (u "tr") || in_strs name section_names then
                 match find_before name bound_table (sk s) with Some _ => close_cell s | None => s end
               else s in
      let select := last_pos (fun e => named (u "select") e && html e) (sk s) in
      let target := last_pos (named name) (sk s) in
      let behind := negb (select =? 0) && negb (target =? 0) && (target <? select) in
      if behind && negb (in_strs name scoped_end_names) then s
      else
        let s := if behind then with_sk (keep (select - 1) (sk s)) s else s in
        let clear (s : st) := if in_strs name cell_names || in_strs name marker_names then cleared s else s in
        match sk s with
        | e :: t =>
          if matches_end name e then with_sk t (clear s)
          else match (if in_strs name scoped_end_names then find_scoped name (sk s) else find_before name default_scope (sk s)) with
               | Some below => with_sk below (clear s)
               | None => s
               end
        | [] => s
        end
  end.
(* what any other start tag, end tag or text that is not white space does to an open column group: engine.py:3627-3630, 2911-2921, 2288-2300 *)
Definition leave_colgroup (s : st) : st := if colg s && current_in [u "colgroup"] (sk s) then St (tl (sk s)) false (fm s) else s.
