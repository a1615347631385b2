(* MODEL of the ordinary start and end tags of the default sanitizing engine: parser/engine.py:3103-3558 (_parse_compiled_safe_start_tag) and 2543-2781
   (_parse_compiled_safe_end_tag), with their short paths (3260-3284, 2572-2591), as CloseModel.v models those of the full parser: the stack of open elements
   with the current node first, for a document whose body has begun; no table, template, select or frameset is open (so of 3285-3482, 3494-3524 and
   2592-2681 only what is cited below applies).  Reconstruction of formatting elements is left out, as in CloseModel.v.  No proofs in this file. *)
From Coq Require Import List Arith Bool String.
From Verif Require Import Str SanModel AaaModel GuardModel CloseModel.
From Verif Require ActionModel.
Import ListNotations.
Open Scope string_scope. Open Scope list_scope. Open Scope nat_scope.

(* engine.py:768, 1042-1125 _CountingStack._p_count: how many elements named p are open (C38) *)
Definition p_count (l : stack) : nat := List.length (filter (named (u "p")) l).
(* engine.py:204-206 _SLOW_START_PARENT_TAGS; 154 _STACK_REPAIR_START_TAGS *)
Definition slow_parents : list str := map u ["table"; "tbody"; "tfoot"; "thead"; "tr"; "head"; "html"; "template"; "optgroup"; "option"; "select"].
Definition repair_start_tags : list str := map u ["dd"; "dt"; "li"; "optgroup"; "option"] ++ headings.
(* engine.py:3115 the entry of a tag; 439-445 _UNKNOWN_TAG_ACTION has no flag set *)
Definition flag (f : ActionModel.tag_action -> bool) (p : policy) (scripting : bool) (name : str) : bool :=
  match ActionModel.plan_action p scripting name with Some a => f a | None => false end.
(* engine.py:4121-4151 _insert_compiled_safe_element, outside tables *)
Definition safe_insert (name : str) (encoded : bool) (l : stack) : stack * made :=
  let e := El name Html encoded in (if in_strs name void_names then l else e :: l, [(e, l)]).
(* engine.py:5974-5977 _should_insert_unwrapped_element, 266 _UNWRAP_CONSTRUCTION_SKIP_TAGS: whether a tag that is not allowed gets an element, which is unwrapped
   at the end *)
Definition built (p : policy) (scripting : bool) (name : str) : bool :=
  negb (in_strs name (map u ["col"; "colgroup"; "form"; "menuitem"])) && negb (in_strs name ActionModel.void_tags) && negb (flag ActionModel.a_head_content p scripting name).
(* engine.py:3532-3537, 3452-3456; 4153-4236 _insert_sanitized_element differs from _insert_raw_element (CloseModel.insert) in what it records.  The first test is
   without `name not in _ACTIVE_FORMATTING_MARKER_TAGS`, which chooses between two functions doing the same *)
Definition unwrapped_insert (name : str) (encoded self_closing : bool) (l : stack) : stack * made :=
  match l with
  | e :: _ => if html e then safe_insert name encoded l else insert name (in_strs name breakout_names) encoded self_closing l
  | [] => insert name (in_strs name breakout_names) encoded self_closing l
  end.
(* engine.py:3118-3121 in foreign content, 3431-3439 an svg or math element that is not skipped at once (C74): the full parser.  3260-3284: the short path; 3447-3456 button; 3483-3492, 3526-3541, 3543-3558 *)
Definition safe_start (p : policy) (scripting quirks : bool) (name : str) (encoded self_closing : bool) (l : stack) : stack * made :=
  match l with
  | [] => start_tag quirks name encoded self_closing l
  | c :: _ =>
    if negb (html c) || in_strs name ActionModel.drop_subtree_tags then start_tag quirks name encoded self_closing l
    else if flag ActionModel.a_simple_start p scripting name && (negb (flag ActionModel.a_p_closing p scripting name) || (p_count l =? 0)) && negb (name_in slow_parents c)
    then let e := El name Html encoded in (if flag ActionModel.a_void p scripting name then l else e :: l, [(e, l)])
    else if str_eqb name (u "button") && negb (in_strs name (allowed_tags p))
    then unwrapped_insert name encoded self_closing (if open_anywhere (u "button") l then or_same (close_until (u "button") [u "template"] l) l else l)
    else
      let l := if in_strs name repair_start_tags || (flag ActionModel.a_p_closing p scripting name && negb (p_count l =? 0)) then repair quirks name l else l in
      if in_strs name (allowed_tags p) then safe_insert name encoded l
      else if built p scripting name then unwrapped_insert name encoded self_closing l else (l, [])
  end.
(* engine.py:2544-2547 elements of other namespaces, 2572-2591 the short path, 2682-2781 *)
Definition safe_end (p : policy) (scripting : bool) (name : str) (l : stack) : stack * made :=
  match l with
  | [] => end_tag name l
  | c :: t =>
    if existsb (fun e => negb (html e)) l then end_tag name l
    else if flag ActionModel.a_simple_end p scripting name && named name c then (t, [])
    else if str_eqb name (u "br") then safe_insert name false l
    else if in_strs name headings then (or_same (find_heading l) l, [])
    else if named name c then (t, [])
    else
      let found :=
        if str_eqb name (u "p") then find_before name p_scope l
        else if str_eqb name (u "li") then find_before name list_item_scope l
        else if in_strs name (map u ["dd"; "dt"]) then find_before name definition_scope l
        else if in_strs name (map u ["audio"; "noscript"; "slot"; "title"]) then find_special name l
        else if str_eqb name (u "summary") then find_before name default_scope l
        else if negb (in_strs name special_names) && negb (flag ActionModel.a_p_closing p scripting name) then find_before name general_scope l
        else find_before name default_scope l in
      match found with
      | Some below => (below, [])
      | None => if str_eqb name (u "p")
                then let '(l, m) := safe_insert name false l in (or_same (close_until (u "p") p_scope l) l, m)
                else (l, [])
      end
  end.
