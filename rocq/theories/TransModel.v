(* MODEL of the transform runtime: /repo/src/justhtml/transforms/runtime.py apply_compiled_transforms.
   Nodes are those of SerializerModel.  Simplifications: a selector is a function of the node it is applied to (name, attributes and
   content at that moment), not of its ancestors and siblings; callbacks return values and do not edit the tree; hooks and reports
   are not modelled; `data is None` is `data == ""`.  The Sanitize-only transforms (drop_foreign_namespaces, decide_elements_chain,
   merge_attr_tokens, strip_invisible_unicode) are in SanModel, linkify in LinkModel, escape is not modelled here. *)
From Verif Require Import Str SerializerModel MiscModel.
Open Scope list_scope. Open Scope N_scope.

Definition attrs_t := list (str * option str).
Definition is_element (n : node) : bool := match n with NElem _ _ _ _ _ => true | _ => false end.
(* transforms/spec.py DecideAction *)
Inductive action := AKeep | ADrop | AUnwrap | AEmpty.

(* The compiled transforms of one walk.  TDecide and TEditAttrs are also the chains compile.py:1072-1105 fuses adjacent ones into. *)
Inductive transform :=
| TSetAttrs (sel : node -> bool) (patch : attrs_t)
| TDrop (sel : node -> bool)
| TUnwrap (sel : node -> bool)
| TEmpty (sel : node -> bool)
| TDecide (sel : option (node -> bool)) (callbacks : list (node -> action))   (* [None]: all_nodes *)
| TEditAttrs (sel : option (node -> bool)) (funcs : list (node -> option attrs_t))
| TDropComments
| TDropDoctype
| TCollapse (skip_tags : list str) (trim_blocks : bool) (block_tags : list str).

(* dict.get and dict[key] = value *)
Fixpoint attr_get (k : str) (l : attrs_t) : option (option str) :=
  match l with [] => None | (k', v) :: t => if str_eqb k k' then Some v else attr_get k t end.
Fixpoint attr_put (k : str) (v : option str) (l : attrs_t) : attrs_t :=
  match l with [] => [(k, v)] | (k', v') :: t => if str_eqb k k' then (k', v) :: t else (k', v') :: attr_put k v t end.
(* runtime.py:784-793: attrs.get(key) is None both for a missing key and for a value None *)
Definition opt_str_eqb (a b : option str) : bool :=
  match a, b with Some x, Some y => str_eqb x y | None, None => true | _, _ => false end.
Definition set_attr (l : attrs_t) (kv : str * option str) : attrs_t :=
  let (key, new_val) := kv in
  if opt_str_eqb (match attr_get key l with Some v => v | None => None end) new_val then l else attr_put key new_val l.
Definition set_attrs (l patch : attrs_t) : attrs_t := fold_left set_attr patch l.

Definition with_attrs (attrs : attrs_t) (n : node) : node :=
  match n with NElem name ns _ cs tc => NElem name ns attrs cs tc | _ => n end.
Definition node_attrs (n : node) : attrs_t := match n with NElem _ _ a _ _ => a | _ => [] end.
(* runtime.py:243-253 _empty_node, 807-819 *)
Definition empty_node (n : node) : node :=
  match n with
  | NElem name ns attrs cs tc => NElem name ns attrs [] (match tc with Some _ => Some [] | None => None end)
  | NDocument _ => NDocument []
  | _ => n
  end.
(* runtime.py:255-268 _detach_children_for_hoist, 858-870 *)
Definition moved_nodes (n : node) : list node :=
  match n with
  | NElem _ _ _ cs tc => cs ++ match tc with Some l => l | None => [] end
  | NDocument cs => cs
  | _ => []
  end.

(* runtime.py:67 *)
Definition non_rendered : list str := [u "datalist"; u "link"; u "meta"; u "script"; u "style"; u "template"].
(* runtime.py:313-337 _nearest_rendered_sibling; [l]: the siblings in the direction of the search, nearest first *)
Definition attr_has (k : str) (l : attrs_t) : bool := match attr_get k l with Some _ => true | None => false end.
Definition attr_str (k : str) (l : attrs_t) : str := match attr_get k l with Some (Some v) => v | _ => [] end.
Definition is_rendered (n : node) : bool :=
  match n with
  | NText d => match d with [] => false | _ => true end
  | NComment _ | NPI _ | NDocument _ => false
  | NDoctype _ => true
  | NElem name _ attrs _ _ =>
    negb (attr_has (u "hidden") attrs || in_strs (lower name) non_rendered
          || (str_eqb (lower name) (u "dialog") && negb (attr_has (u "open") attrs))
          || (str_eqb (lower name) (u "input") && str_eqb (lower (attr_str (u "type") attrs)) (u "hidden")))
  end.
Definition nearest_rendered (l : list node) : option node := List.find is_rendered l.

(* runtime.py:339-366 _trim_block_edge_text; [parent]: the parent's name unless it is a document or fragment *)
Definition is_block_sibling (block_tags : list str) (n : node) : bool :=
  match n with
  | NElem name _ _ _ _ => str_eqb (lower name) (u "br") || in_strs (lower name) block_tags
  | NDoctype _ => in_strs (u "!doctype") block_tags
  | _ => false
  end.
Definition edge (block_tags : list str) (s : option node) : bool :=
  match s with None => true | Some n => is_block_sibling block_tags n end.
Definition trim_block_edge (parent : option str) (left right : list node) (block_tags : list str) (text : str) : str :=
  match parent with
  | None => text
  | Some name =>
    if negb (in_strs (lower name) block_tags) then text
    else
      let text := if edge block_tags (nearest_rendered left) then lstrip_by is_html_space text else text in
      if edge block_tags (nearest_rendered right) then rstrip_by is_html_space text else text
  end.
(* runtime.py:595-619 *)
Definition collapsed_text (trim_blocks : bool) (block_tags : list str) (parent : option str) (left right : list node) (d : str) : str :=
  let collapsed := collapse_spaces d in
  let collapsed :=
    match collapsed with
    | c :: rest =>
      if c =? 32 then
        match nearest_rendered left with
        | Some (NText p) => match rev p with e :: _ => if is_html_space e then rest else collapsed | [] => collapsed end
        | _ => collapsed
        end
      else collapsed
    | [] => collapsed
    end in
  if trim_blocks then trim_block_edge parent left right block_tags collapsed else collapsed.

(* What the transforms do to the node under the cursor: keep it (possibly edited), or put other nodes in its place, each with the index of the
   first transform it will see (created_start_index, runtime.py:186-195). *)
Inductive outcome := Kept (n : node) | Gone (l : list (nat * node)).

(* runtime.py:729-749: the first answer that is not KEEP *)
Fixpoint first_action (callbacks : list (node -> action)) (n : node) : action :=
  match callbacks with
  | [] => AKeep
  | f :: t => match f n with AKeep => first_action t n | a => a end
  end.
(* runtime.py:482-494, 757-769 *)
Definition edit_attrs (funcs : list (node -> option attrs_t)) (n : node) : node :=
  fold_left (fun n f => match f n with Some a => with_attrs a n | None => n end) funcs n.

(* runtime.py:421-881, the loop `for idx in range(start_at, wt_len)` *)
Fixpoint run_ts (idx : nat) (ts : list transform) (parent : option str) (skip_ws : bool) (left right : list node) (n : node) : outcome :=
  match ts with
  | [] => Kept n
  | t :: ts =>
    let go := run_ts (S idx) ts parent skip_ws left right in
    match t with
    | TSetAttrs sel patch => if is_element n && sel n then go (with_attrs (set_attrs (node_attrs n) patch) n) else go n
    | TDrop sel => if is_element n && sel n then Gone [] else go n
    | TUnwrap sel => if is_element n && sel n then Gone (map (pair (S idx)) (moved_nodes n)) else go n
    | TEmpty sel => if is_element n && sel n then go (empty_node n) else go n
    | TDecide sel callbacks =>
      if match sel with None => true | Some s => is_element n && s n end then
        match first_action callbacks n with
        | AKeep => go n
        | AEmpty => go (empty_node n)
        | AUnwrap => Gone (map (pair idx) (moved_nodes n))
        | ADrop => Gone []
        end
      else go n
    | TEditAttrs sel funcs =>
      if is_element n && match sel with None => true | Some s => s n end then go (edit_attrs funcs n) else go n
    | TDropComments => match n with NComment _ | NPI _ => Gone [] | _ => go n end
    | TDropDoctype => match n with NDoctype _ => Gone [] | _ => go n end
    | TCollapse _ trim_blocks block_tags =>
      match n with
      | NText d =>
        if skip_ws then go n
        else match d with
        | [] => go n
        | _ => match collapsed_text trim_blocks block_tags parent left right d with [] => Gone [] | s => go (NText s) end
        end
      | _ => go n
      end
    end
  end.

(* runtime.py:182-184 *)
Definition whitespace_skip_tags (ts : list transform) : list str := flat_map (fun t => match t with TCollapse s _ _ => s | _ => [] end) ts.

(* runtime.py:368-903 apply_to_children; the stack of positions is the call stack here.  [left]: the children before the cursor, nearest
   first; [todo]: the others with their start index.  None: out of fuel (excluded by TransProofs.walk_total). *)
Fixpoint walk (fuel : nat) (ts : list transform) (parent : option str) (skip_ws : bool) (left : list node) (todo : list (nat * node)) : option (list node) :=
  match todo with
  | [] => Some (rev left)
  | (m, n) :: rest =>
    match fuel with
    | O => None
    | S fuel =>
      match run_ts m (skipn m ts) parent skip_ws left (map snd rest) n with
      | Gone l => walk fuel ts parent skip_ws left (l ++ rest)
      | Kept n' =>
        match n' with
        | NDocument cs =>
          match walk fuel ts None skip_ws [] (map (pair O) cs) with
          | Some cs' => walk fuel ts parent skip_ws (NDocument cs' :: left) rest
          | None => None
          end
        | NElem name ns attrs cs tc =>
          let skip := skip_ws || in_strs (lower name) (whitespace_skip_tags ts) in
          match walk fuel ts (Some name) skip [] (map (pair O) cs),
                match tc with
                | Some l => match walk fuel ts None skip [] (map (pair O) l) with Some l' => Some (Some l') | None => None end
                | None => Some None
                end with
          | Some cs', Some tc' => walk fuel ts parent skip_ws (NElem name ns attrs cs' tc' :: left) rest
          | _, _ => None
          end
        | _ => walk fuel ts parent skip_ws (n' :: left) rest
        end
      end
    end
  end.

Fixpoint tree_size (n : node) : nat :=
  match n with
  | NDocument cs => S (fold_right (fun c a => tree_size c + a)%nat O cs)
  | NElem _ _ _ cs tc =>
    S (fold_right (fun c a => tree_size c + a)%nat O cs + match tc with Some l => fold_right (fun c a => tree_size c + a)%nat O l | None => O end)
  | _ => 1%nat
  end.

(* runtime.py:84-90, 905-914 apply_walk_transforms (without the bulk path below) *)
Definition apply_walk (ts : list transform) (n : node) : option node :=
  match ts with
  | [] => Some n
  | _ =>
    match n with
    | NDocument cs => match walk (tree_size n) ts None false [] (map (pair O) cs) with Some cs' => Some (NDocument cs') | None => None end
    | NElem name ns attrs cs tc =>
      match walk (tree_size n) ts (Some name) false [] (map (pair O) cs),
            match tc with
            | Some l => match walk (tree_size n) ts None false [] (map (pair O) l) with Some l' => Some (Some l') | None => None end
            | None => Some None
            end with
      | Some cs', Some tc' => Some (NElem name ns attrs cs' tc')
      | _, _ => None
      end
    | _ => Some n
    end
  end.

(* runtime.py:982-1042: one walk per batch; the list of batches is what Stage and PruneEmpty split the pipeline into *)
Fixpoint apply_batches (batches : list (list transform)) (n : node) : option node :=
  match batches with
  | [] => Some n
  | ts :: rest => match apply_walk ts n with Some n' => apply_batches rest n' | None => None end
  end.

(* compile.py:463-482 _drop_if_tag: the callback of Drop("tag1, tag2") *)
Definition drop_if_tag (tags : list str) (n : node) : action :=
  match n with NElem name _ _ _ _ => if in_strs (lower name) tags then ADrop else AKeep | _ => AKeep end.
(* runtime.py:97-118: the bulk path for a single tag-only Drop; the worklist of parents is recursion here *)
Fixpoint bulk_drop (tags : list str) (n : node) : node :=
  let kept := filter (fun c => match drop_if_tag tags c with ADrop => false | _ => true end) in
  match n with
  | NDocument cs => NDocument (kept (map (bulk_drop tags) cs))
  | NElem name ns attrs cs tc =>
    NElem name ns attrs (kept (map (bulk_drop tags) cs)) (match tc with Some l => Some (kept (map (bulk_drop tags) l)) | None => None end)
  | _ => n
  end.

(* ---------- PruneEmpty ---------- *)
Record prune := Prune { p_sel : node -> bool; p_strip : bool }.
(* runtime.py:922-938 _has_content *)
Definition has_content (strip_ws : bool) (l : list node) : bool :=
  existsb (fun c => match c with
    | NText d => match (if strip_ws then strip d else d) with [] => false | _ => true end
    | NComment _ | NPI _ | NDocument _ => false
    | NDoctype _ | NElem _ _ _ _ _ => true
    end) l.
(* runtime.py:918-947 _is_effectively_empty_element *)
Definition effectively_empty (strip_ws : bool) (n : node) : bool :=
  match n with
  | NElem name ns _ cs tc =>
    if match ns with Some s => str_eqb s (u "html") | None => false end && in_strs (lower name) void_elements then false
    else if has_content strip_ws cs then false
    else match tc with Some l => negb (has_content strip_ws l) | None => true end
  | _ => true
  end.
(* runtime.py:962-980: is a visited node removed?  Special nodes (name starts with #) never are. *)
Definition pruned_away (pts : list prune) (n : node) : bool :=
  match n with
  | NText _ | NComment _ | NPI _ | NDocument _ => false
  | _ => existsb (fun pt => p_sel pt n && effectively_empty (p_strip pt) n) pts
  end.
(* runtime.py:949-980: the post-order walk; the stack is recursion here.  The root has no parent and stays (runtime.py:962). *)
Fixpoint prune_tree (pts : list prune) (n : node) : node :=
  let kept := filter (fun c => negb (pruned_away pts c)) in
  match n with
  | NDocument cs => NDocument (kept (map (prune_tree pts) cs))
  | NElem name ns attrs cs tc =>
    NElem name ns attrs (kept (map (prune_tree pts) cs)) (match tc with Some l => Some (kept (map (prune_tree pts) l)) | None => None end)
  | _ => n
  end.
