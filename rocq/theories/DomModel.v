(* MODEL of /repo/src/justhtml/dom/__init__.py: the node classes as mutable objects in a heap, and the tree-editing and cloning methods.
   Node objects and attribute dicts are identified by numbers; a heap maps them to their contents. *)
From Verif Require Import Str SerializerModel SanModel.
From Coq Require Import Lia.

(* dom/__init__.py:133, 513, 528, 543, 557, 573, 669, 738: the classes *)
Inductive kind := KNode | KDocument | KFragment | KComment | KPI | KElement | KTemplate | KText.
Definition kind_eqb (a b : kind) : bool :=
  match a, b with
  | KNode, KNode | KDocument, KDocument | KFragment, KFragment | KComment, KComment | KPI, KPI | KElement, KElement
  | KTemplate, KTemplate | KText, KText => true
  | _, _ => false
  end.
(* dom/__init__.py:150 _metadata slots: str | int | None *)
Inductive meta_val := MNone | MInt (n : N) | MStr (s : str).
Definition metadata := option (list meta_val).

(* dom/__init__.py:134-150, 574-584, 739-745: the slots.  [attrs] is the identity of the dict.  The children property of a Text
   (843-846) always returns a fresh empty list: its [kids] are [Some []].  template_content of a non-Element is [None]. *)
Record cell := Cell { kd : kind; nm : str; ns : option str; attrs : option nat; data : doctype_data; meta : metadata; end_tag : bool;
                      self_close : bool; par : option nat; kids : option (list nat); tcon : option nat }.
Definition blank := Cell KText [] None None DNone None false false None (Some []) None.

Record heap := Heap { hnext : nat; cell_at : nat -> cell; dnext : nat; dict_at : nat -> attr_list }.
Definition empty_heap := Heap 0 (fun _ => blank) 0 (fun _ => []).

(* attribute stores: obj.field = value *)
Definition set_cell (h : heap) (x : nat) (c : cell) : heap :=
  Heap (hnext h) (fun y => if y =? x then c else cell_at h y)%nat (dnext h) (dict_at h).
Definition with_par (p : option nat) (c : cell) : cell :=
  Cell (kd c) (nm c) (ns c) (attrs c) (data c) (meta c) (end_tag c) (self_close c) p (kids c) (tcon c).
Definition with_kids (k : option (list nat)) (c : cell) : cell :=
  Cell (kd c) (nm c) (ns c) (attrs c) (data c) (meta c) (end_tag c) (self_close c) (par c) k (tcon c).
Definition with_tcon (t : option nat) (c : cell) : cell :=
  Cell (kd c) (nm c) (ns c) (attrs c) (data c) (meta c) (end_tag c) (self_close c) (par c) (kids c) t.
Definition with_meta (m : metadata) (e s : bool) (c : cell) : cell :=
  Cell (kd c) (nm c) (ns c) (attrs c) (data c) m e s (par c) (kids c) (tcon c).
Definition set_par (h : heap) (x : nat) (p : option nat) : heap := set_cell h x (with_par p (cell_at h x)).
Definition set_kids (h : heap) (x : nat) (l : list nat) : heap := set_cell h x (with_kids (Some l) (cell_at h x)).
Definition set_tcon (h : heap) (x : nat) (t : option nat) : heap := set_cell h x (with_tcon t (cell_at h x)).
Definition kidl (h : heap) (x : nat) : list nat := match kids (cell_at h x) with Some l => l | None => [] end.

(* a new dict object, a new node object *)
Definition new_dict (h : heap) (d : attr_list) : nat * heap :=
  (dnext h, Heap (hnext h) (cell_at h) (S (dnext h)) (fun y => if y =? dnext h then d else dict_at h y)%nat).
Definition new_cell (h : heap) (c : cell) : nat * heap :=
  (hnext h, Heap (S (hnext h)) (fun y => if y =? hnext h then c else cell_at h y)%nat (dnext h) (dict_at h)).

(* The value of a call: a result; an exception (with the heap as it was left); or the model ran out of fuel. *)
Inductive exn := ValueError (msg : str) | IndexError | AttributeError | NoObject.
Inductive ret (A : Type) := Ret (a : A) (h : heap) | Exn (e : exn) (h : heap) | Loop.
Arguments Ret {A}. Arguments Exn {A}. Arguments Loop {A}.
Definition rbind {A B} (r : ret A) (f : A -> heap -> ret B) : ret B :=
  match r with Ret a h => f a h | Exn e h => Exn e h | Loop => Loop end.

(* list.index(x) (== on nodes is identity), list.pop(i), list.insert(i, x), l[i:i] = xs, l[i] = x, list.remove(x) *)
Definition index_of (x : nat) : list nat -> option nat :=
  fix go l := match l with [] => None | y :: t => if (y =? x)%nat then Some O else option_map S (go t) end.
Definition pop_at (i : nat) (l : list nat) : list nat := (firstn i l ++ skipn (S i) l)%list.
Definition splice_at (i : nat) (xs l : list nat) : list nat := (firstn i l ++ xs ++ skipn i l)%list.

(* dom/__init__.py:201-205, "while current is not None" in _adopt_child: is [node] on the parent chain starting at [current]? *)
Fixpoint on_chain (fuel : nat) (h : heap) (current : option nat) (node : nat) : option bool :=
  match fuel with
  | O => None
  | S k => match current with
           | None => Some false
           | Some c => if (c =? node)%nat then Some true else on_chain k h (par (cell_at h c)) node
           end
  end.

(* dom/__init__.py:191-199 the fast-path test: a detached node without children and template content *)
Definition detached_leaf (h : heap) (node : nat) : bool :=
  match par (cell_at h node) with
  | Some _ => false
  | None => match kidl h node with
            | [] => negb (kind_eqb (kd (cell_at h node)) KTemplate) || match tcon (cell_at h node) with None => true | Some _ => false end
            | _ :: _ => false
            end
  end.

(* dom/__init__.py:187-216 _adopt_child *)
Definition adopt_child (h : heap) (self node : nat) : ret (option nat * option nat) :=
  if (node =? self)%nat then Exn (ValueError (u "Cannot insert a node into itself")) h
  else if detached_leaf h node then Ret (None, None) h
  else match on_chain (S (S (hnext h))) h (Some self) node with
  | None => Loop
  | Some true => Exn (ValueError (u "Cannot insert an ancestor into its descendant")) h
  | Some false =>
    let old_parent := par (cell_at h node) in
    let old_children := match old_parent with Some p => kids (cell_at h p) | None => None end in
    match old_parent, old_children with
    | Some p, Some l =>
      match index_of node l with
      | Some i => Ret (old_parent, Some i) (set_par (set_kids h p (pop_at i l)) node None)
      | None => Ret (old_parent, None) (set_par h node None)
      end
    | _, _ => Ret (old_parent, None) (set_par h node None)
    end
  end.

(* dom/__init__.py:224-226 "for child in children: child.parent = self" *)
Definition set_pars (s : nat) (l : list nat) (h : heap) : heap := fold_left (fun h c => set_par h c (Some s)) l h.

(* dom/__init__.py:218-227 _insert_fragment.  self.children is read as a list: the callers have checked that it is not None; a
   DocumentFragment always has a list. *)
Definition insert_fragment (h : heap) (self fragment : nat) (reference : option nat) : ret unit :=
  rbind (adopt_child h self fragment) (fun _ h =>
  let target := kidl h self in
  match (match reference with None => Some (List.length target) | Some r => index_of r target end) with
  | None => Exn (ValueError (u "not in list")) h
  | Some i =>
    let children := kidl h fragment in
    let h := set_kids h fragment [] in
    let h := set_pars self children h in
    Ret tt (set_kids h self (splice_at i children target))
  end).

(* dom/__init__.py:177-185 append_child; a Text has no such method *)
Definition append_child (h : heap) (self node : nat) : ret unit :=
  if kind_eqb (kd (cell_at h self)) KText then Exn AttributeError h else
  match kids (cell_at h self) with
  | None => Ret tt h
  | Some _ =>
    if kind_eqb (kd (cell_at h node)) KFragment then insert_fragment h self node None
    else rbind (adopt_child h self node) (fun _ h =>
         Ret tt (set_par (set_kids h self (kidl h self ++ [node])) node (Some self)))
  end.

(* dom/__init__.py:308-311 remove_child *)
Definition remove_child (h : heap) (self node : nat) : ret unit :=
  if kind_eqb (kd (cell_at h self)) KText then Exn AttributeError h else
  match kids (cell_at h self) with
  | None => Ret tt h
  | Some l => match index_of node l with
              | None => Exn (ValueError (u "not in list")) h
              | Some i => Ret tt (set_par (set_kids h self (pop_at i l)) node None)
              end
  end.

(* dom/__init__.py:441-442, 478-479 "old_parent is self and old_index is not None and old_index < index" *)
Definition shift_index (self : nat) (old : option nat * option nat) (index : nat) : nat :=
  match old with
  | (Some p, Some i) => if ((p =? self) && (i <? index))%nat%bool then (index - 1)%nat else index
  | _ => index
  end.

(* dom/__init__.py:411-445 insert_before *)
Definition insert_before (h : heap) (self node : nat) (reference : option nat) : ret unit :=
  if kind_eqb (kd (cell_at h self)) KText then Exn AttributeError h else
  match kids (cell_at h self) with
  | None => Exn (ValueError (u "cannot have children")) h
  | Some l =>
    match reference with
    | None => append_child h self node
    | Some r =>
      if (node =? r)%nat then Ret tt h else
      match index_of r l with
      | None => Exn (ValueError (u "Reference node is not a child of this node")) h
      | Some index =>
        if kind_eqb (kd (cell_at h node)) KFragment then insert_fragment h self node (Some r)
        else rbind (adopt_child h self node) (fun old h =>
             let index := shift_index self old index in
             Ret tt (set_par (set_kids h self (splice_at index [node] (kidl h self))) node (Some self)))
      end
    end
  end.

(* dom/__init__.py:447-483 replace_child; returns old_node *)
Definition replace_child (h : heap) (self new_node old_node : nat) : ret nat :=
  if kind_eqb (kd (cell_at h self)) KText then Exn AttributeError h else
  match kids (cell_at h self) with
  | None => Exn (ValueError (u "cannot have children")) h
  | Some l =>
    match index_of old_node l with
    | None => Exn (ValueError (u "The node to be replaced is not a child of this node")) h
    | Some index =>
      if (new_node =? old_node)%nat then Ret old_node h
      else if kind_eqb (kd (cell_at h new_node)) KFragment then
        rbind (insert_fragment h self new_node (Some old_node)) (fun _ h =>
        rbind (remove_child h self old_node) (fun _ h => Ret old_node h))
      else
        rbind (adopt_child h self new_node) (fun old h =>
        let index := shift_index self old index in
        let l := kidl h self in
        if (index <? List.length l)%nat then
          Ret old_node (set_par (set_par (set_kids h self (firstn index l ++ new_node :: skipn (S index) l)) new_node (Some self)) old_node None)
        else Exn IndexError h)
    end
  end.

(* dom/__init__.py:164-171: name.startswith("#") or name == "!doctype"; the names without children *)
Definition hash_name (name : str) : bool := starts (u "#") name || str_eqb name (u "!doctype").
Definition leaf_name (name : str) : bool := in_strs name [u "#comment"; u "#processing-instruction"; u "!doctype"].
(* namespace or "html" *)
Definition ns_or_html (ns : option str) : option str := match ns with None | Some [] => Some (u "html") | _ => ns end.
(* "attrs if attrs is not None else {}": here always a new dict (callers pass a dict they own) *)
Definition dict_or_new (a : option attr_list) : attr_list := match a with Some a => a | None => [] end.

(* dom/__init__.py:152-175 Node.__init__, with the class [k] *)
Definition init_node (k : kind) (h : heap) (name : str) (a : option attr_list) (d : doctype_data) (n : option str) : nat * heap :=
  if hash_name name then
    if leaf_name name then new_cell h (Cell k name n None d None false false None None None)
    else let '(i, h) := new_dict h (dict_or_new a) in new_cell h (Cell k name n (Some i) d None false false None (Some []) None)
  else let '(i, h) := new_dict h (dict_or_new a) in new_cell h (Cell k name (ns_or_html n) (Some i) d None false false None (Some []) None).
(* dom/__init__.py:516-517, 531-532, 546-547, 560-561 *)
Definition new_document (h : heap) := init_node KDocument h (u "#document") None DNone None.
Definition new_fragment (h : heap) := init_node KFragment h (u "#document-fragment") None DNone None.
Definition new_comment (h : heap) (d : doctype_data) := init_node KComment h (u "#comment") None d None.
Definition new_pi (h : heap) (d : doctype_data) := init_node KPI h (u "#processing-instruction") None d None.
(* dom/__init__.py:586-596 Element.__init__ *)
Definition new_element (k : kind) (h : heap) (name : str) (a : option attr_list) (n : option str) : nat * heap :=
  let '(i, h) := new_dict h (dict_or_new a) in new_cell h (Cell k name n (Some i) DNone None false false None (Some []) None).
(* dom/__init__.py:672-684 Template.__init__ *)
Definition opt_str_eqb (a : option str) (b : str) : bool := match a with Some x => str_eqb x b | None => false end.
Definition new_template (h : heap) (name : str) (a : option attr_list) (n : option str) : nat * heap :=
  let '(t, h) := new_element KTemplate h name a n in
  if opt_str_eqb n (u "html") then
    let '(f, h) := new_fragment h in (t, set_par (set_tcon h t (Some f)) f (Some t))
  else (t, h).
(* dom/__init__.py:747-752 Text.__init__ *)
Definition new_text (h : heap) (d : doctype_data) : nat * heap :=
  new_cell h (Cell KText (u "#text") None None d None false false None (Some []) None).

(* "x.attrs.copy() if x.attrs else None" / "... else {}": both end as a copy of the dict, or an empty dict *)
Definition attrs_value (h : heap) (x : nat) : option attr_list := option_map (dict_at h) (attrs (cell_at h x)).
Definition str_data (d : doctype_data) : doctype_data := match d with DStr s => DStr s | _ => DNone end.
Definition copy_meta (e s : bool) (m : metadata) (r : nat * heap) : nat * heap :=
  let '(c, h) := r in (c, set_cell h c (with_meta m e s (cell_at h c))).

(* clone_node(deep=False, override_attrs): dom/__init__.py:489-510, 519-525, 534-540, 549-554, 563-570, 658-666, 686-699, 852-856 *)
Definition clone_shallow (h : heap) (x : nat) (ov : option attr_list) : nat * heap :=
  let c := cell_at h x in
  let a := match ov with Some o => Some o | None => attrs_value h x end in
  match kd c with
  | KNode => copy_meta false false (meta c) (init_node KNode h (nm c) a (data c) (ns c))
  | KDocument => copy_meta false false (meta c) (new_document h)
  | KFragment => copy_meta false false (meta c) (new_fragment h)
  | KComment => copy_meta false false (meta c) (new_comment h (str_data (data c)))
  | KPI => copy_meta false false (meta c) (new_pi h (str_data (data c)))
  | KElement => copy_meta (end_tag c) (self_close c) (meta c) (new_element KElement h (nm c) a (ns c))
  | KTemplate => copy_meta (end_tag c) (self_close c) (meta c) (new_template h (nm c) a (ns c))
  | KText => copy_meta false false (meta c) (new_text h (data c))
  end.

(* dom/__init__.py:724-734 the loop over the children: clones appended to [target]; the pairs to process are those of Nodes (not Text) *)
Fixpoint clone_children (h : heap) (target : nat) (children : list nat) : list (nat * nat) * heap :=
  match children with
  | [] => ([], h)
  | child :: rest =>
    let '(c, h) := clone_shallow h child None in
    let h := set_par (set_kids h target (kidl h target ++ [c])) c (Some target) in
    let '(pending, h) := clone_children h target rest in
    ((if kind_eqb (kd (cell_at h child)) KText then pending else (child, c) :: pending), h)
  end.

(* dom/__init__.py:706-736 one iteration of the loop of _clone_subtree_iterative, with (source, target) popped; returns the pairs pushed,
   the next one to pop first.  Text never gets on the stack. *)
Definition clone_step (h : heap) (source target : nat) : list (nat * nat) * heap :=
  let '(pushed, h) :=
    match tcon (cell_at h source) with
    | Some f =>
      if kind_eqb (kd (cell_at h source)) KTemplate && kind_eqb (kd (cell_at h target)) KTemplate then
        let '(g, h) := clone_shallow h f None in
        let h := set_par (set_tcon h target (Some g)) g (Some target) in ([(f, g)], h)
      else ([], h)
    | None => ([], h)
    end in
  match kidl h source with
  | [] => (pushed, h)
  | children => match kids (cell_at h target) with
                | None => (pushed, h)
                | Some _ => let '(pending, h) := clone_children h target children in ((pending ++ pushed)%list, h)
                end
  end.
Fixpoint clone_loop (fuel : nat) (h : heap) (stack : list (nat * nat)) : option heap :=
  match fuel with
  | O => None
  | S k => match stack with
           | [] => Some h
           | (s, t) :: rest => let '(pushed, h) := clone_step h s t in clone_loop k h (pushed ++ rest)
           end
  end.
(* dom/__init__.py:702-736 _clone_subtree_iterative *)
Definition clone_subtree (fuel : nat) (h : heap) (root : nat) : ret nat :=
  let '(r, h) := clone_shallow h root None in
  match clone_loop fuel h [(root, r)] with Some h => Ret r h | None => Loop end.
(* clone_node(deep, override_attrs) of each class: the shallow clone is made first and dropped when deep *)
Definition clone_node (fuel : nat) (h : heap) (x : nat) (deep : bool) (ov : option attr_list) : ret nat :=
  let '(c, h1) := clone_shallow h x ov in
  if deep then match kd (cell_at h x) with
               | KComment | KPI | KText => Ret c h1
               | _ => clone_subtree fuel h1 x
               end
  else Ret c h1.
Close Scope nat_scope.
