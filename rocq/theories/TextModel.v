(* MODEL of text extraction: to_text of /repo/src/justhtml/dom/__init__.py and the text of :contains() in
   /repo/src/justhtml/selector/core.py.
   Nodes are those of SerializerModel; [Some l] as last component of NElem is the children of a Template's
   template_content fragment.  `data is None` and `data == ""` are not distinguished. *)
From Verif Require Import Str SerializerModel.
Open Scope list_scope. Open Scope N_scope.

(* current.children *)
Definition children_of (n : node) : list node := match n with NDocument cs => cs | NElem _ _ _ cs _ => cs | _ => [] end.
(* [current.template_content] if it is a Template with one *)
Definition template_of (n : node) : list node := match n with NElem _ _ _ _ (Some l) => [NDocument l] | _ => [] end.
Definition name_in (n : node) (names : list str) : bool := match n with NElem name _ _ _ _ => in_strs name names | _ => false end.

(* dom/__init__.py:20-28, 104-112: the piece a text node contributes, if any *)
Definition text_piece (strip_it : bool) (d : str) : list str :=
  match (if strip_it then strip d else d) with [] => [] | s => [s] end.

(* dom/__init__.py:12-37 _to_text_collect.  The stack's top is its head; stack.extend(reversed(children)) puts the
   first child on top.  [None]: out of fuel (excluded by TextProofs.collect_fuel). *)
Fixpoint collect (fuel : nat) (strip_it : bool) (stack : list node) (parts : list str) : option (list str) :=
  match stack with
  | [] => Some parts
  | current :: stack =>
    match fuel with
    | O => None
    | S fuel =>
      match current with
      | NText d => collect fuel strip_it stack (parts ++ text_piece strip_it d)
      | _ => collect fuel strip_it (children_of current ++ template_of current ++ stack) parts
      end
    end
  end.

(* dom/__init__.py:40-83 *)
Definition text_block_elements : list str :=
  map u ["address"; "article"; "aside"; "blockquote"; "body"; "dd"; "div"; "dl"; "dt"; "fieldset"; "figcaption"; "figure";
   "footer"; "form"; "h1"; "h2"; "h3"; "h4"; "h5"; "h6"; "header"; "hr"; "html"; "li"; "main"; "nav"; "ol"; "p"; "pre";
   "section"; "table"; "tbody"; "td"; "tfoot"; "th"; "thead"; "tr"; "ul"]%string.
Definition text_break_elements : list str := [u "br"].

(* dom/__init__.py:86-88 _to_text_break.  [chunks] is the list without its last element, [last] that element (it always
   has one: dom/__init__.py:386) *)
Definition text_break (c : list (list str) * list str) : list (list str) * list str :=
  match snd c with [] => c | last => (fst c ++ [last], []) end.
Inductive task := Enter (n : node) | Exit (n : node).
(* dom/__init__.py:91-130 _to_text_collect_block_chunks *)
Fixpoint chunks_loop (fuel : nat) (strip_it : bool) (stack : list task) (c : list (list str) * list str) : option (list (list str)) :=
  match stack with
  | [] => Some (fst c ++ [snd c])
  | t :: stack =>
    match fuel with
    | O => None
    | S fuel =>
      match t with
      | Exit _ => chunks_loop fuel strip_it stack (text_break c)
      | Enter (NText d) => chunks_loop fuel strip_it stack (fst c, snd c ++ text_piece strip_it d)
      | Enter current =>
        if name_in current text_break_elements then chunks_loop fuel strip_it stack (text_break c)
        else if name_in current text_block_elements
        then chunks_loop fuel strip_it (map Enter (children_of current) ++ map Enter (template_of current) ++ Exit current :: stack) (text_break c)
        else chunks_loop fuel strip_it (map Enter (children_of current) ++ map Enter (template_of current) ++ stack) c
      end
    end
  end.

(* enough fuel: one step per node and fragment, and one per exit *)
Fixpoint text_size (n : node) : nat :=
  match n with
  | NDocument cs => S (fold_right (fun c a => text_size c + a)%nat O cs)
  | NElem _ _ _ cs tc =>
    S (S (fold_right (fun c a => text_size c + a)%nat O cs
          + match tc with Some l => S (fold_right (fun c a => text_size c + a)%nat O l) | None => O end))
  | _ => 1%nat
  end.

(* dom/__init__.py:363-399 Node.to_text, 823-837 Text.to_text *)
Definition to_text (separator : str) (strip_it blocks_only : bool) (n : node) : option str :=
  match n with
  | NText d => Some (if strip_it then strip d else d)
  | _ =>
    if negb blocks_only then
      match collect (text_size n) strip_it [n] [] with
      | Some parts => Some (match parts with [] => [] | _ => join separator parts end)
      | None => None
      end
    else
      match chunks_loop (text_size n) strip_it [Enter n] ([], []) with
      | Some chunks =>
        let texts := flat_map (fun chunk => match chunk with [] => [] | _ => [join (if strip_it then u " " else []) chunk] end) chunks in
        Some (match texts with [] => [] | _ => join separator texts end)
      | None => None
      end
  end.

(* selector/core.py:1118-1180 _text_content, the text :contains() searches; recursion instead of the stack and cache *)
Fixpoint contains_text (n : node) : str :=
  match n with
  | NText d => strip d
  | NDocument cs => join (u " ") (filter (fun s => match s with [] => false | _ => true end) (map contains_text cs))
  | NElem _ _ _ cs tc =>
    join (u " ") (filter (fun s => match s with [] => false | _ => true end)
      (map contains_text cs ++
       match tc with
       | Some l => [join (u " ") (filter (fun s => match s with [] => false | _ => true end) (map contains_text l))]
       | None => []
       end))
  | _ => []
  end.
