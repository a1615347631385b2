(* Model of dom/builder.py (266 lines): text, comment, doctype, element and their helpers.
   Exceptions are values; [Fuel] stands for "the loop was given too few iterations" and is excluded by a theorem. *)
From Coq Require Import NArith List Bool String.
From Verif Require Import Str SerializerModel.
Import ListNotations.
Open Scope list_scope. Open Scope N_scope.

Inductive exn := TypeError | ValueError.
Inductive res (A : Type) := RFuel | RErr (e : exn) | ROk (a : A).
Arguments RFuel {A}. Arguments RErr {A}. Arguments ROk {A}.

(* dom/builder.py:11 _SPECIAL_NODE_NAMES *)
Definition special_node_names : list str := [u "#text"; u "#comment"; u "#document"; u "#document-fragment"; u "!doctype"].
(* dom/builder.py:12 _ALLOWED_NAMESPACES *)
Definition allowed_namespaces : list str := [u "html"; u "svg"; u "math"].

(* dom/builder.py:205-208, 225-229, 238-244: the inner scanning loops `while index < length and remainder[index] ...`.
   [scan_to stop bad s]: skips the characters of s before the first one in [stop]; [None] = the loop raised because a
   character in [bad] came first; otherwise what was skipped and what is left (empty = index >= length). *)
Fixpoint scan_to (stop bad : str) (s : str) : option (str * str) :=
  match s with
  | [] => Some ([], [])
  | c :: r =>
    if mem c stop then Some ([], s)
    else if mem c bad then None
    else match scan_to stop bad r with
         | None => None
         | Some (v, rest) => Some (c :: v, rest)
         end
  end.

(* dom/builder.py:198-266, the loop of _parse_element_name; [s] is remainder[index:], [attrs] the dict in insertion order *)
Fixpoint attr_loop (fuel : nat) (s : str) (attrs : list (str * option str)) : res (list (str * option str)) :=
  match s with
  | [] => ROk attrs
  | c :: s =>
    match fuel with
    | O => RFuel
    | S k =>
      if negb (c =? 91) then RErr ValueError                                   (* "Invalid attribute shorthand" *)
      else match scan_to [61; 93] [] s with                                    (* attr_name *)
      | None => RErr ValueError
      | Some (_, []) => RErr ValueError                                        (* "Unclosed attribute shorthand" *)
      | Some ([], _ :: _) => RErr ValueError                                   (* "must not be empty" *)
      | Some (name, d :: s) =>
        match validate_attr_name name with
        | None => RErr ValueError
        | Some _ =>
          if in_strs name (map fst attrs) then RErr ValueError                 (* duplicate *)
          else if d =? 93 then attr_loop k s (attrs ++ [(name, None)])
          else match s with
          | [] => RErr ValueError                                              (* "Missing attribute value" *)
          | quote :: s' =>
            if mem quote [34; 39] then
              match scan_to [quote] [92] s' with
              | None => RErr ValueError                                        (* backslash *)
              | Some (_, []) => RErr ValueError                                (* "Unclosed quoted attribute value" *)
              | Some (v, _ :: s2) =>
                match s2 with
                | [] => RErr ValueError
                | e :: s3 => if e =? 93 then attr_loop k s3 (attrs ++ [(name, Some v)]) else RErr ValueError
                end
              end
            else
              match scan_to [93] [91] s with
              | None => RErr ValueError                                        (* "[" in an unquoted value *)
              | Some (_, []) => RErr ValueError
              | Some (v, _ :: s2) => attr_loop k s2 (attrs ++ [(name, Some v)])
              end
          end
        end
      end
    end
  end.

(* dom/builder.py:177-196, 266 _parse_element_name *)
Definition parse_element_name (value : str) : res (str * list (str * option str)) :=
  match value with
  | [] => RErr ValueError
  | _ =>
    let '(tag_name, remainder) :=
      match find_char 91 value with
      | None => (value, [])
      | Some i => (firstn i value, skipn i value)
      end in
    match tag_name with
    | [] => RErr ValueError
    | _ =>
      if existsb is_space tag_name then RErr ValueError
      else if negb (in_strs tag_name special_node_names) && negb (tag_name_re tag_name) then RErr ValueError
      else match attr_loop (List.length remainder) remainder [] with
           | ROk attrs => ROk (tag_name, attrs)
           | RErr e => RErr e
           | RFuel => RFuel
           end
    end
  end.

(* The Python values builder functions tell apart. *)
Inductive child :=
| CNone | CBool (b : bool) | CStr (s : str)
| CNode (n : node)                       (* a detached node other than a DocumentFragment *)
| CFragment (l : list node)              (* a DocumentFragment with these children *)
| CMapping | CBytes | CNumber
| CIter (l : list child)                 (* any other finite iterable: list, tuple, generator, set... *)
| COther.                                (* any other object *)
Inductive key := KStr (s : str) | KOther.
(* the second argument of element: None, a mapping (values after `None if value is None else str(value)`,
   builder.py:121), or anything else, which is the first child *)
Inductive attrs_arg := ANone | AMapping (l : list (key * option str)) | AChild (c : child).
Inductive ns_arg := NsNone | NsStr (s : str) | NsOther.

(* dom/builder.py:106-122 _normalize_attrs (a mapping's keys are distinct, so `normalized[key] = ...` appends) *)
Fixpoint normalize_attrs (l : list (key * option str)) : res (list (str * option str)) :=
  match l with
  | [] => ROk []
  | (KOther, _) :: _ => RErr TypeError
  | (KStr k, v) :: l =>
    match k with
    | [] => RErr ValueError
    | _ =>
      match validate_attr_name k with
      | None => RErr ValueError
      | Some _ => match normalize_attrs l with
                  | ROk r => ROk ((k, v) :: r)
                  | RErr e => RErr e
                  | RFuel => RFuel
                  end
      end
    end
  end.

(* dom/builder.py:125-138 _normalize_namespace *)
Definition normalize_namespace (n : ns_arg) : res str :=
  match n with
  | NsNone => ROk (u "html")
  | NsOther => RErr TypeError
  | NsStr s =>
    let n := lower s in
    let n := if str_eqb n (u "mathml") then u "math" else n in
    if in_strs n allowed_namespaces then ROk n else RErr ValueError
  end.

(* dom/builder.py:141-180 _flatten_children: an explicit stack, top first; the items it collects are nodes to append *)
Fixpoint flatten_loop (fuel : nat) (stack : list child) (flattened : list child) : res (list child) :=
  match stack with
  | [] => ROk flattened
  | current :: stack =>
    match fuel with
    | O => RFuel
    | S k =>
      match current with
      | CNone | CBool false => flatten_loop k stack flattened
      | CBool true => RErr TypeError
      | CStr s => flatten_loop k stack (flattened ++ [CNode (NText s)])
      | CNode _ | CFragment _ => flatten_loop k stack (flattened ++ [current])
      | CMapping | CBytes | CNumber => RErr TypeError
      | CIter l => flatten_loop k (l ++ stack) flattened
      | COther => RErr TypeError
      end
    end
  end.
Fixpoint child_size (c : child) : nat :=
  match c with
  | CIter l => S (fold_right (fun c a => child_size c + a)%nat O l)
  | _ => 1%nat
  end.
Definition children_size (l : list child) : nat := fold_right (fun c a => child_size c + a)%nat O l.
Definition flatten_children (l : list child) : res (list child) := flatten_loop (children_size l) l [].

(* dom/__init__.py:177-185 append_child on a fresh node, for a detached argument: a fragment's children are spliced.
   (Re-parenting attached nodes, cycles: DomModel.) *)
Definition append_child (children : list node) (c : child) : list node :=
  match c with
  | CNode n => children ++ [n]
  | CFragment l => children ++ l
  | _ => children
  end.

(* dom/builder.py:66-103 element *)
Definition element (name : str) (attrs : attrs_arg) (children : list child) (namespace : ns_arg) : res node :=
  match normalize_namespace namespace with
  | RFuel => RFuel
  | RErr e => RErr e
  | ROk ns =>
    let '(actual_attrs, actual_children) :=
      match attrs with
      | ANone => ([], children)
      | AMapping l => (l, children)
      | AChild c => ([], c :: children)
      end in
    match parse_element_name name with
    | RFuel => RFuel
    | RErr e => RErr e
    | ROk (tag_name, shorthand) =>
      if in_strs tag_name special_node_names then RErr ValueError
      else match normalize_attrs actual_attrs with
      | RFuel => RFuel
      | RErr e => RErr e
      | ROk explicit =>
        if existsb (fun kv => in_strs (fst kv) (map fst explicit)) shorthand then RErr ValueError
        else
          let merged := shorthand ++ explicit in
          match flatten_children actual_children with
          | RFuel => RFuel
          | RErr e => RErr e
          | ROk l =>
            let kids := fold_left append_child l [] in
            if str_eqb tag_name (u "template") && str_eqb ns (u "html")
            then ROk (NElem tag_name (Some ns) merged [] (Some kids))
            else ROk (NElem tag_name (Some ns) merged kids None)
          end
      end
    end
  end.

(* dom/builder.py:15-24 text, comment *)
Definition text (value : str) : res node := ROk (NText value).
Definition comment (value : str) : res node := ROk (NComment value).
(* dom/builder.py:27-44 doctype; the force_quirks flag is not read by the serializer *)
Definition doctype_node (name : str) (public_id system_id : option str) : res node :=
  match name with
  | [] => ROk (NDoctype (DObj (Doctype_ (Some name) public_id system_id)))
  | _ => match validate_tag_name name with
         | None => RErr ValueError
         | Some _ => ROk (NDoctype (DObj (Doctype_ (Some name) public_id system_id)))
         end
  end.
