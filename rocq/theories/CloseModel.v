(* MODEL of what ordinary start and end tags in the body open and close: parser/engine.py:3560-4119 (_parse_start_tag) and 2783-3101 (_parse_end_tag) with
   their helpers, in raw mode, for a document whose body has begun.  The stack of open elements is a list with the current node first; the document, which
   is below it in the code and which no loop reaches (range(len - 1, 0, -1)), is left out.  Left out too: the tags in other_rules (tables, select, forms,
   templates, framesets, head elements, raw text elements, formatting elements: C35, C62, C64, C65 are about some of them), fragments, tracking of positions,
   the flag for reconstruction (C64).  That the counting stack answers as the plain list does is C38. *)
From Coq Require Import List Arith Bool String.
From Verif Require Import Str.
From Verif Require Import AaaModel GuardModel.
Import ListNotations.
Open Scope string_scope. Open Scope list_scope. Open Scope nat_scope.

(* enc: an annotation-xml element whose encoding attribute says HTML (C38, C65) *)
Record el := El { en : str; es : space; enc : bool }.
Notation stack := (list el).
Definition html (e : el) : bool := match es e with Html => true | _ => false end.
Definition named (n : str) (e : el) : bool := str_eqb (en e) n.
Definition name_in (l : list str) (e : el) : bool := in_strs (en e) l.
(* engine.py:4386-4397 *)
Definition html_point (e : el) : bool :=
  match es e with Svg => name_in (map u ["foreignObject"; "desc"; "title"]) e | Math => named (u "annotation-xml") e && enc e | Html => false end.
Definition text_point (e : el) : bool := match es e with Math => name_in (map u ["mi"; "mo"; "mn"; "ms"; "mtext"]) e | _ => false end.
(* engine.py:803-815 _is_foreign_boundary *)
Definition foreign_boundary (e : el) : bool := negb (html e) && (html_point e || text_point e).

(* core/constants.py:359-377, engine.py:90-92, 196-201 *)
Definition default_scope : list str := map u ["applet"; "caption"; "html"; "marquee"; "object"; "table"; "td"; "template"; "th"].
Definition p_scope : list str := u "button" :: default_scope.
Definition definition_scope : list str := u "dl" :: default_scope.
Definition list_item_scope : list str := u "ol" :: u "ul" :: default_scope.
Definition general_scope : list str := u "button" :: u "table" :: special_names.
(* engine.py:106-142 _P_CLOSING_START_TAGS *)
Definition headings : list str := map u ["h1"; "h2"; "h3"; "h4"; "h5"; "h6"].
Definition p_closing : list str := headings ++ map u ["address"; "article"; "aside"; "blockquote"; "center"; "details"; "dialog"; "dir"; "div"; "dl"; "fieldset"; "figcaption"; "figure"; "footer"; "form"; "header"; "hgroup"; "hr"; "listing"; "main"; "menu"; "nav"; "ol"; "p"; "pre"; "search"; "section"; "summary"; "table"; "ul"; "dd"; "dt"; "li"; "xmp"].
(* core/constants.py IMPLIED_END_TAGS *)
Definition implied_names : list str := map u ["dd"; "dt"; "li"; "optgroup"; "option"; "p"; "rb"; "rp"; "rt"; "rtc"].

(* engine.py:4446-4480 _find_open_index_before_boundary, the shallow loop; the result is the stack below the element found: what del self._stack[idx:] leaves *)
Fixpoint find_before (name : str) (bounds : list str) (l : stack) : option stack :=
  match l with
  | [] => None
  | e :: t => if named name e then Some t
              else if html e then if name_in bounds e then None else find_before name bounds t
              else if foreign_boundary e then None else find_before name bounds t
  end.
(* engine.py:4476-4480, the deep stack: positions count from the bottom; a missing one is -1 *)
Fixpoint last_pos (p : el -> bool) (l : stack) : nat := match l with [] => O | e :: t => if p e then List.length l else last_pos p t end.
Definition find_deep (name : str) (bounds : list str) (l : stack) : option stack :=
  let target := last_pos (named name) l in
  if target =? O then None
  else if last_pos (fun e => (html e && name_in bounds e) || foreign_boundary e) l <=? target then Some (skipn (List.length l - target + 1) l) else None.
(* engine.py:5025-5044 _close_until_before_boundary *)
Fixpoint close_until (name : str) (bounds : list str) (l : stack) : option stack :=
  match l with
  | [] => None
  | e :: t => if named name e then Some t else if html e && name_in bounds e then None else close_until name bounds t
  end.
Definition or_same (r : option stack) (l : stack) : stack := match r with Some t => t | None => l end.
(* engine.py:4483-4510 _find_open_index_in_current_scope, with no template open *)
Definition open_anywhere (name : str) (l : stack) : bool := existsb (named name) l.
(* engine.py:4522-4528 _find_open_heading_index *)
Fixpoint find_heading (l : stack) : option stack :=
  match l with
  | [] => None
  | e :: t => if name_in headings e then Some t else if (html e && name_in default_scope e) || foreign_boundary e then None else find_heading t
  end.
(* engine.py:5046-5054 _generate_implied_end_tags *)
Fixpoint implied (exclude : option str) (l : stack) : stack :=
  match l with
  | [] => []
  | e :: t => if name_in implied_names e && negb (match exclude with Some x => named x e | None => false end) then implied exclude t else l
  end.
(* engine.py:5944-5945 _is_special_node *)
Definition special (e : el) : bool := html e && name_in special_names e.
(* engine.py:5056-5067 _close_open_li_for_start; del cuts at the index found whatever was popped before *)
Fixpoint close_li (l : stack) : option stack :=
  match l with
  | [] => None
  | e :: t => if named (u "li") e then Some t else if special e && negb (name_in (map u ["address"; "div"; "p"]) e) then None else close_li t
  end.
(* engine.py:4302-4313 _pop_foreign_for_breakout.  No fragment *)
Fixpoint pop_foreign (l : stack) : stack :=
  match l with
  | e :: ((_ :: _) as t) => if negb (html e) && negb (html_point e) && negb (text_point e) then pop_foreign t else l
  | _ => l
  end.
(* engine.py:5069-5112 _repair_stack_for_start.  quirks: the document is in quirks mode *)
Definition repair (quirks : bool) (name : str) (l : stack) : stack :=
  let l := if in_strs name p_closing && negb (str_eqb name (u "table") && quirks) && match find_before (u "p") p_scope l with Some _ => true | None => false end
           then or_same (close_until (u "p") p_scope l) l else l in
  if str_eqb name (u "li") then or_same (close_li l) l
  else if in_strs name (map u ["dd"; "dt"]) then
    let l := or_same (close_until (u "dd") definition_scope l) l in or_same (close_until (u "dt") definition_scope l) l
  else if in_strs name headings then
    match pop_foreign l with
    | e :: t => if name_in headings e then t else e :: t
    | [] => []
    end
  else l.
(* engine.py:4341-4352 _raw_start_uses_html_text_parsing *)
Definition html_text (name : str) (l : stack) : bool :=
  match l with
  | [] => true
  | e :: _ => html e || html_point e || (text_point e && negb (in_strs name (map u ["mglyph"; "malignmark"])))
  end.
(* engine.py:4321-4339 _namespace_for_raw_start.  breaks: _is_foreign_breakout_start (4315-4319) *)
Definition namespace_for (name : str) (breaks : bool) (l : stack) : space * stack :=
  match l with
  | [] => (by_name name, l)
  | e :: _ =>
    if html e then (by_name name, l)
    else if html_point e then (by_name name, l)
    else if text_point e && negb (in_strs name (map u ["mglyph"; "malignmark"])) then (by_name name, l)
    else if match es e with Math => named (u "annotation-xml") e && str_eqb name (u "svg") | _ => false end then (Svg, l)
    else if negb breaks then (es e, l)
    else (by_name name, pop_foreign l)
  end.

(* an element is made: what it is, and the stack its parent is on top of *)
Notation made := (list (el * stack)).
(* engine.py:4238-4288 _insert_raw_element, 4290-4300 _prepare_raw_element.  The parent is the current node: a foreign parent no longer on the stack is replaced
   by it (4249-4250).  No table is open, so nothing is foster parented *)
Definition insert (name : str) (breaks encoded self_closing : bool) (l : stack) : stack * made :=
  let '(ns, l) := namespace_for name breaks l in
  let e := El (match ns with Svg => svg_name name | _ => name end) ns encoded in
  let void := match ns with Html => in_strs name void_names | _ => self_closing end in
  (if void then l else e :: l, [(e, l)]).

(* engine.py:3560-4119 for an ordinary tag (not font, so 4315-4319 is the list alone): 3937-3944 button, 4007-4014 ruby, 4024-4032 the repair, 4107 the insertion *)
Definition start_tag (quirks : bool) (name : str) (encoded self_closing : bool) (l : stack) : stack * made :=
  let breaks := in_strs name breakout_names in
  let ht := html_text name l in
  let l := if ht && str_eqb name (u "button") && open_anywhere (u "button") l
           then let l := implied None l in or_same (close_until (u "button") [u "template"] l) l else l in
  let ruby := open_anywhere (u "ruby") l in
  let l := if ht && ruby && in_strs name (map u ["rb"; "rtc"])
           then match l with e :: _ => if name_in (map u ["rb"; "rp"; "rt"; "rtc"]) e then implied None l else l | [] => l end
           else if ht && ruby && in_strs name (map u ["rp"; "rt"]) then implied (Some (u "rtc")) l else l in
  let l := if negb ht && negb breaks then l else repair quirks name l in
  insert name breaks encoded self_closing l.

(* engine.py:4421-4425 _node_matches_end_name *)
Definition matches_end (name : str) (e : el) : bool := named name e || (negb (html e) && str_eqb (lower (en e)) name).
(* what comes of an end tag in foreign content *)
Inductive stay := Leave | Stay (l : stack).
(* engine.py:1405-1441 _end_tag_stays_in_foreign_context *)
Definition stays (name : str) (l : stack) : stay :=
  match l with
  | [] => Leave
  | e :: _ =>
    if html e then Leave
    else if in_strs name (map u ["br"; "p"]) then Leave
    else
      let adjusted := svg_name name in
      let target := Nat.max (last_pos (named name) l) (if str_eqb adjusted name then O else last_pos (named adjusted) l) in
      let html_index := last_pos html l in
      if (target =? O) || (target <? html_index) then (if html_index =? O then Stay l else Leave)
      else
        let rest := skipn (List.length l - target) l in
        match rest with
        | [] => Leave
        | n :: below =>
          if html n && (target <? last_pos foreign_boundary l) then Stay l
          else if html n then Leave
          else Stay below
        end
  end.
(* engine.py:3062-3067 *)
Fixpoint find_special (name : str) (l : stack) : option stack :=
  match l with [] => None | e :: t => if matches_end name e then Some t else if special e then None else find_special name t end.
(* engine.py:2783-3101 for an ordinary tag: 2832 foreign content, 2981-2985 br, 2994-3002 headings, 3037-3050 the current node, 3052-3080 the search, 3081-3101 *)
Definition end_tag (name : str) (l : stack) : stack * made :=
  match stays name l with
  | Stay l => (l, [])
  | Leave =>
    if str_eqb name (u "br") then insert name true false false l
    else if in_strs name headings then (or_same (find_heading l) l, [])
    else
      match l with
      | e :: t =>
        if matches_end name e then (t, [])
        else
          let found :=
            if str_eqb name (u "p") then find_before name p_scope l
            else if str_eqb name (u "li") then find_before name list_item_scope l
            else if in_strs name (map u ["dd"; "dt"]) then find_before name definition_scope l
            else if in_strs name (map u ["audio"; "noscript"; "slot"; "title"]) then find_special name l
            else if str_eqb name (u "summary") then find_before name default_scope l
            else if negb (in_strs name special_names) && negb (in_strs name p_closing) then find_before name general_scope l
            else find_before name default_scope l in
          match found with
          | Some below => (below, [])
          | None => if str_eqb name (u "p")
                    then let '(l, m) := insert name true false false l in (or_same (close_until (u "p") p_scope l) l, m)
                    else (l, [])
          end
      | [] => ([], [])
      end
  end.

(* the names other rules are for *)
Definition other_rules : list str := formatting_names ++ map u ["html"; "head"; "body"; "frameset"; "frame"; "template"; "table"; "caption"; "colgroup"; "col"; "tbody"; "thead"; "tfoot"; "tr"; "td"; "th";
  "select"; "option"; "optgroup"; "selectedcontent"; "form"; "image"; "menuitem"; "base"; "basefont"; "bgsound"; "link"; "meta"; "title"; "script"; "style"; "noscript"; "noframes"; "noembed"; "iframe"; "xmp"; "textarea"; "plaintext"; "input"; "isindex"].
Definition ordinary (name : str) : bool := negb (in_strs name other_rules).
