(* MODEL of the pretty printer of /repo/src/justhtml/serializer/html.py (the default of to_html).
   Simplifications: the explicit task stack of _node_to_html (849-1397) is structural recursion, nested fragment
   tuples are strings (815-846 only concatenate), the memo and the node budget of 566-647 are omitted (they cache
   the answer of a pure walk).  ValueError of an unserializable name is [None].  A child list holds no None, and a
   DocumentFragment occurs only as root (append_child splices its children). *)
From Coq Require Import ZArith.
From Verif Require Import Str SerializerModel MiscModel.
Open Scope list_scope. Open Scope N_scope.

(* core/constants.py:193-201 WHITESPACE_PRESERVING_ELEMENTS *)
Definition whitespace_preserving : list str := [u "code"; u "pre"; u "script"; u "style"; u "textarea"].

(* core/constants.py:273-359 SPECIAL_ELEMENTS *)
Definition special_elements : list str :=
  map u ["address"; "applet"; "area"; "article"; "aside"; "base"; "basefont"; "bgsound"; "blockquote"; "body"; "br";
   "button"; "caption"; "center"; "col"; "colgroup"; "dd"; "details"; "dialog"; "dir"; "div"; "dl"; "dt"; "embed";
   "fieldset"; "figcaption"; "figure"; "footer"; "form"; "frame"; "frameset"; "h1"; "h2"; "h3"; "h4"; "h5"; "h6";
   "head"; "header"; "hgroup"; "hr"; "html"; "iframe"; "img"; "input"; "keygen"; "li"; "link"; "listing"; "main";
   "marquee"; "menu"; "meta"; "nav"; "noembed"; "noframes"; "noscript"; "object"; "ol"; "p"; "param"; "plaintext";
   "pre"; "script"; "search"; "section"; "select"; "source"; "style"; "summary"; "table"; "tbody"; "td"; "template";
   "textarea"; "tfoot"; "th"; "thead"; "title"; "tr"; "track"; "ul"; "wbr"]%string.

(* serializer/html.py:664-721 _LAYOUT_BLOCK_ELEMENTS *)
Definition layout_block_elements : list str :=
  map u ["address"; "article"; "aside"; "blockquote"; "body"; "caption"; "center"; "dd"; "details"; "dialog"; "dir";
   "div"; "dl"; "dt"; "fieldset"; "figcaption"; "figure"; "footer"; "form"; "h1"; "h2"; "h3"; "h4"; "h5"; "h6";
   "header"; "hgroup"; "hr"; "html"; "iframe"; "li"; "listing"; "main"; "marquee"; "menu"; "nav"; "noframes";
   "noscript"; "ol"; "p"; "plaintext"; "pre"; "search"; "section"; "summary"; "table"; "tbody"; "td"; "tfoot"; "th";
   "thead"; "tr"; "ul"]%string.

Definition is_text (n : node) : bool := match n with NText _ => true | _ => false end.
Definition is_comment (n : node) : bool := match n with NComment _ => true | _ => false end.
(* child.name not in {"#text", "#comment"} *)
Definition is_other (n : node) : bool := negb (is_text n) && negb (is_comment n).
(* not data.strip() *)
Definition blank (d : str) : bool := match strip d with [] => true | _ => false end.
(* serializer/html.py:553-554 _is_whitespace_text_node *)
Definition blank_text (n : node) : bool := match n with NText d => blank d | _ => false end.
(* child.name == "#text" and (child.data or "").strip() *)
Definition solid_text (n : node) : bool := match n with NText d => negb (blank d) | _ => false end.

(* serializer/html.py:581-647 _has_block_descendant: some node below (through `children`, not template contents) is
   named in [blocks] *)
Fixpoint has_block (blocks : list str) (n : node) : bool :=
  match n with
  | NElem _ _ _ cs _ => existsb (fun c => match c with NElem name _ _ _ _ => in_strs name blocks | _ => false end || has_block blocks c) cs
  | NDocument cs => existsb (fun c => match c with NElem name _ _ _ _ => in_strs name blocks | _ => false end || has_block blocks c) cs
  | _ => false
  end.
(* serializer/html.py:650-661 _is_blocky_element, 724-736 _is_layout_blocky_element *)
Definition blocky_in (blocks : list str) (n : node) : bool :=
  match n with
  | NElem name _ _ _ _ => in_strs name blocks || has_block blocks n
  | NDocument _ => has_block blocks n
  | _ => false
  end.
Definition is_blocky := blocky_in special_elements.
Definition is_layout_blocky := blocky_in layout_block_elements.

(* serializer/html.py:739-761 _pretty_renders_nonempty with in_pre=False (its only use) *)
Fixpoint renders_nonempty (n : node) : bool :=
  match n with
  | NText d => negb (blank d)
  | NDocument cs => existsb renders_nonempty cs
  | _ => true
  end.

(* serializer/html.py:764-771 _is_formatting_whitespace_text *)
Definition formatting_whitespace (d : str) : bool :=
  match d with
  | [] => false
  | _ => if mem 10 d || mem 13 d || mem 9 d || mem 12 d then true else Nat.ltb 2 (List.length d)
  end.
(* "\n" in data or "\r" in data or "\t" in data or len(data) > 2 (1111, 1288; no form feed here) *)
Definition line_space (d : str) : bool := mem 10 d || mem 13 d || mem 9 d || Nat.ltb 2 (List.length d).

(* serializer/html.py:800-806, the loop over element_children[1:] *)
Fixpoint no_inline_pair (prev_is_blocky : bool) (l : list node) : bool :=
  match l with
  | [] => true
  | c :: t => let current := is_blocky c in
              if negb prev_is_blocky && negb current then false else no_inline_pair current t
  end.
(* serializer/html.py:774-807 _should_pretty_indent_children *)
Definition should_indent (children : list node) : bool :=
  if existsb (fun c => is_comment c || solid_text c) children then false
  else match filter is_other children with
       | [] => true
       | [only] => is_blocky only
       | c :: t => no_inline_pair (is_blocky c) t
       end.

(* serializer/html.py:810-812 _pretty_indent; _MAX_PRETTY_INDENT_DEPTH = 64 *)
Definition pretty_indent (depth indent_size : Z) : str := repeat 32 (Z.to_nat (Z.min depth 64 * indent_size)).

(* a child with its renderer: from an indent and in_pre to html *)
Definition render := Z -> bool -> option str.
Definition kid := (node * render)%type.
(* the ("lit", text) and ("child", index) entries of the line templates; children there are rendered at the given
   indent with in_pre=False *)
Inductive part := Lit (s : str) | Child (r : render) (indent : Z).
(* (line_prefix, parts_template, strip_spaces) *)
Definition line := (str * list part * bool)%type.

Definition opt_cat (a b : option str) : option str :=
  match a, b with Some x, Some y => Some (x ++ y) | _, _ => None end.
(* serializer/html.py:1328-1336, 1380-1386 *)
Definition eval_part (p : part) : option str := match p with Lit s => Some s | Child r indent => r indent false end.
Fixpoint eval_parts (l : list part) : option str :=
  match l with [] => Some [] | p :: t => opt_cat (eval_part p) (eval_parts t) end.
(* serializer/html.py:1378-1391: the lines, each after a newline *)
Fixpoint eval_lines (skip_empty : bool) (l : list line) : option str :=
  match l with
  | [] => Some []
  | (prefix, parts, strip_spaces) :: t =>
    match eval_parts parts with
    | None => None
    | Some s =>
      let s := if strip_spaces then strip_chars (u " ") s else s in
      opt_cat (Some (if match s with [] => false | _ => true end || negb skip_empty then 10 :: prefix ++ s else [])) (eval_lines skip_empty t)
    end
  end.
(* "collect_wrap_lines", serializer/html.py:1340-1392 *)
Definition wrap_lines (prefix open_tag close_tag : str) (lines : list line) (skip_empty : bool) : option str :=
  opt_cat (Some (prefix ++ open_tag)) (opt_cat (eval_lines skip_empty lines) (Some (10 :: prefix ++ close_tag))).
(* "collect_wrap_parts", serializer/html.py:1300-1337 *)
Definition wrap_parts (prefix open_tag close_tag : str) (parts : list part) : option str :=
  opt_cat (Some (prefix ++ open_tag)) (opt_cat (eval_parts parts) (Some close_tag)).
(* "collect_wrap_join" with separator "", serializer/html.py:1275-1298; all children with in_pre=True *)
Fixpoint eval_all (kids : list kid) (indent : Z) (in_pre : bool) : option (list str) :=
  match kids with
  | [] => Some []
  | (_, r) :: t => match r indent in_pre, eval_all t indent in_pre with Some a, Some l => Some (a :: l) | _, _ => None end
  end.

(* serializer/html.py:975-987: whitespace separators become None, runs of them one *)
Fixpoint to_items (last_was_sep : bool) (kids : list kid) : list (option kid) :=
  match kids with
  | [] => []
  | k :: t =>
    match fst k with
    | NText d => if blank d && formatting_whitespace d
                 then (if last_was_sep then to_items true t else None :: to_items true t)
                 else Some k :: to_items false t
    | _ => Some k :: to_items false t
    end
  end.
(* serializer/html.py:989-990 *)
Fixpoint drop_seps (l : list (option kid)) : list (option kid) :=
  match l with None :: t => drop_seps t | _ => l end.
(* serializer/html.py:994-1003; the empty runs are then removed (1004) *)
Fixpoint to_runs (current : list kid) (l : list (option kid)) : list (list kid) :=
  match l with
  | [] => [rev current]
  | None :: t => rev current :: to_runs [] t
  | Some k :: t => to_runs (k :: current) t
  end.
Definition is_nil {A} (l : list A) : bool := match l with [] => true | _ => false end.
(* serializer/html.py:973-1004 *)
Definition runs (kids : list kid) : list (list kid) :=
  filter (fun r => negb (is_nil r)) (to_runs [] (rev (drop_seps (rev (drop_seps (to_items false kids)))))).

(* serializer/html.py:1024-1036 *)
Definition run_part (k : kid) : part :=
  match fst k with
  | NText d => if blank d then Lit d else Lit (escape_text (normalize_formatting d))
  | _ => Child (snd k) 0%Z
  end.
(* serializer/html.py:1008-1043, one run; [None]: can_apply = False *)
Definition run_line (current_indent indent_size : Z) (run : list kid) : option line :=
  if existsb (fun k => is_other (fst k) && is_blocky (fst k)) run && negb (Nat.eqb (List.length run) 1) then None
  else match run with
       | [(NText _, _)] => Some (pretty_indent (current_indent + 1) indent_size, map run_part run, false)
       | [(_, r)] => Some ([], [Child r (current_indent + 1)%Z], false)
       | _ => Some (pretty_indent (current_indent + 1) indent_size, map run_part run, false)
       end.
Fixpoint run_lines (current_indent indent_size : Z) (rs : list (list kid)) : option (list line) :=
  match rs with
  | [] => Some []
  | r :: t => match run_line current_indent indent_size r, run_lines current_indent indent_size t with
              | Some a, Some l => Some (a :: l) | _, _ => None end
  end.

(* non_none_children[1:-1] *)
Definition inner_part {A} (l : list A) : list A := match l with [] => [] | _ :: t => removelast t end.
(* serializer/html.py:963-971 *)
Definition has_separator (children : list node) : bool :=
  existsb (fun c => match c with NText d => blank d && formatting_whitespace d | _ => false end) (inner_part children).

(* serializer/html.py:1093-1131.  [first]: the child is the first one; [inl]: inline_parts, reversed *)
Definition flush (indent indent_size : Z) (inl : list part) : list line :=
  match inl with [] => [] | _ => [(pretty_indent (indent + 1) indent_size, rev inl, true)] end.
Fixpoint mixed_lines (indent indent_size : Z) (first : bool) (inl : list part) (kids : list kid) : list line :=
  match kids with
  | [] => flush indent indent_size inl
  | k :: t =>
    match fst k with
    | NText d =>
      if blank d then
        if first || is_nil t then mixed_lines indent indent_size false inl t
        else if line_space d then flush indent indent_size inl ++ mixed_lines indent indent_size false [] t
        else mixed_lines indent indent_size false (Lit d :: inl) t
      else mixed_lines indent indent_size false (Lit (escape_text (normalize_formatting d)) :: inl) t
    | n =>
      if is_layout_blocky n
      then flush indent indent_size inl ++ ([], [Child (snd k) (indent + 1)%Z], false) :: mixed_lines indent indent_size false [] t
      else mixed_lines indent indent_size false (Child (snd k) 0%Z :: inl) t
    end
  end.

(* serializer/html.py:1148-1173: has_whitespace_between_elements *)
Fixpoint spaced_elements (previous saw : bool) (children : list node) : bool :=
  match children with
  | [] => false
  | NText d :: t => spaced_elements previous (saw || (previous && blank d)) t
  | _ :: t => (previous && saw) || spaced_elements true false t
  end.
(* serializer/html.py:1175-1182: some text that is not blank stands before the first element, or between the first
   and the last *)
Definition text_before_last_element (children : list node) : bool :=
  existsb solid_text (let fix go l := match l with [] => [] | c :: t => if is_text c then go t else t end in go (rev children)).
(* serializer/html.py:1191-1213 *)
Definition element_line (indent indent_size : Z) (k : kid) : list line :=
  match fst k with
  | NText d => match collapse_html d with
               | [] => []
               | t => [(pretty_indent (indent + 1) indent_size, [Lit (escape_text t)], false)]
               end
  | n => if renders_nonempty n then [([], [Child (snd k) (indent + 1)%Z], false)] else []
  end.

(* serializer/html.py:1230-1258 *)
Fixpoint compact_parts (first : bool) (kids : list kid) : list part :=
  match kids with
  | [] => []
  | k :: t =>
    match fst k with
    | NText d =>
      if blank d && (first || is_nil t) then compact_parts false t
      else if blank d && line_space d then Lit [32] :: compact_parts false t
      else Lit (escape_text (normalize_formatting d)) :: compact_parts false t
    | _ => Child (snd k) 0%Z :: compact_parts false t
    end
  end.

(* serializer/html.py:936-1048: the first part of the SPECIAL_ELEMENTS layout; [None]: not applicable *)
Definition special_lines (indent indent_size : Z) (kids : list kid) : option (list line) :=
  let children := map fst kids in
  let visible := filter (fun k => negb (blank_text (fst k)) && renders_nonempty (fst k)) kids in
  if negb (existsb solid_text children) && negb (is_nil visible)
  then Some (map (fun k => ([], [Child (snd k) (indent + 1)%Z], false)) visible)
  else if negb (existsb is_comment children) && has_separator children
  then match run_lines indent indent_size (runs kids) with
       | Some [] => None
       | o => o
       end
  else None.

(* serializer/html.py:1065-1227: the second part, when the children are not simply indented *)
Definition special_mixed (indent indent_size : Z) (kids : list kid) : option (list line) :=
  let children := map fst kids in
  if existsb is_comment children then None
  else if existsb (fun c => is_other c && is_layout_blocky c) children && existsb solid_text children
  then Some (mixed_lines indent indent_size true [] kids)
  else if existsb is_other children && spaced_elements false false children && negb (text_before_last_element children)
  then match flat_map (element_line indent indent_size) kids with
       | [] => None
       | l => Some l
       end
  else None.

(* serializer/html.py:886-1271: an element that is not void, after its tags are made *)
Definition pretty_content (indent_size : Z) (name : str) (ns : option str) (open_tag close_tag : str) (kids : list kid)
    (indent : Z) (in_pre : bool) : option str :=
  let prefix := if in_pre then [] else pretty_indent indent indent_size in
  let content_pre := in_pre || in_strs name whitespace_preserving in
  let children := map fst kids in
  match kids with
  | [] => Some (prefix ++ open_tag ++ close_tag)
  | _ =>
    if content_pre then
      match eval_all kids (indent + 1)%Z true with
      | Some l => Some (prefix ++ open_tag ++ List.concat l ++ close_tag)
      | None => None
      end
    else if forallb is_text children then
      let text := collapse_html (flat_map (fun c => match c with NText d => d | _ => [] end) children) in
      Some (prefix ++ open_tag ++ serialize_text_for_parent text (Some (name, ns)) ++ close_tag)
    else
      let special := in_strs name special_elements in
      match (if special then special_lines indent indent_size kids else None) with
      | Some lines => wrap_lines prefix open_tag close_tag lines true
      | None =>
        if should_indent children then
          wrap_lines prefix open_tag close_tag
            (map (fun k => ([], [Child (snd k) (indent + 1)%Z], false)) (filter (fun k => negb (blank_text (fst k))) kids)) false
        else
          match (if special then special_mixed indent indent_size kids else None) with
          | Some lines => wrap_lines prefix open_tag close_tag lines true
          | None => wrap_parts prefix open_tag close_tag (compact_parts true kids)
          end
      end
  end.

Definition lines_joined (l : list str) : str := join [10] l.

(* serializer/html.py:849-1271 _node_to_html, the "visit" task; [parent] is what a text node sees as its parent *)
Fixpoint pretty (indent_size : Z) (n : node) (parent : parent_info) (indent : Z) (in_pre : bool) {struct n} : option str :=
  let prefix := if in_pre then [] else pretty_indent indent indent_size in
  match n with
  | NText d =>
    if in_pre then Some (serialize_text_for_parent d parent)
    else match strip d with
         | [] => Some []
         | t => Some (prefix ++ serialize_text_for_parent t parent)
         end
  | NComment d => Some (prefix ++ u "<!--" ++ serialize_comment_data d ++ u "-->")
  | NPI d => Some (prefix ++ u "<?" ++ serialize_pi_data d ++ u "?>")
  | NDoctype d => Some (prefix ++ serialize_doctype d)
  | NDocument cs => option_map lines_joined (eval_all (map (fun c => (c, pretty indent_size c None)) cs) indent false)
  | NElem name ns attrs cs tc =>
    match serialize_start_tag default_opts ns name attrs with
    | None => None
    | Some open_tag =>
      if in_strs name void_elements then Some (prefix ++ open_tag)
      else
        let close_tag := u "</" ++ name ++ u ">" in
        let kids := if str_eqb name (u "template") && match ns with None => true | Some n => str_eqb n (u "html") end
                    then match tc with
                         | Some l => map (fun c => (c, pretty indent_size c None)) l
                         | None => map (fun c => (c, pretty indent_size c (Some (name, ns)))) cs
                         end
                    else map (fun c => (c, pretty indent_size c (Some (name, ns)))) cs in
        pretty_content indent_size name ns open_tag close_tag kids indent in_pre
    end
  end.

(* serializer/html.py:424-443 to_html(node, indent, indent_size, pretty=True) with the HTML context.  [fragment]: the
   root is a #document-fragment (880-885: empty pieces are left out) *)
Definition to_html_pretty (fragment : bool) (n : node) (parent : parent_info) (indent indent_size : Z) : option str :=
  match n with
  | NDocument cs =>
    if fragment then
      option_map (fun l => lines_joined (filter (fun s => negb (is_nil s)) l))
        (eval_all (map (fun c => (c, pretty indent_size c None)) cs) indent false)
    else pretty indent_size n parent indent false
  | _ => pretty indent_size n parent indent false
  end.
