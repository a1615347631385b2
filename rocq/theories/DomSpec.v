(* SPECIFICATION: what it means for a heap of nodes to be a forest, and which tree a node stands for. *)
From Verif Require Import Str SerializerModel SanModel DomModel.
From Coq Require Import Relations.

Definition parent (h : heap) (x : nat) : option nat := par (cell_at h x).
Definition children (h : heap) (x : nat) : list nat := kidl h x.
Definition content (h : heap) (x : nat) : option nat := tcon (cell_at h x).
Definition is_fragment (h : heap) (x : nat) : Prop := kd (cell_at h x) = KFragment.
(* the links that are followed downwards: children and template contents *)
Definition below (h : heap) (x y : nat) : Prop := In y (children h x) \/ content h x = Some y.
(* [a] is [x], its parent, its parent's parent, ... *)
Inductive above (h : heap) : nat -> nat -> Prop :=
| above_self : forall x, above h x x
| above_up : forall a x p, parent h x = Some p -> above h a p -> above h a x.

(* A forest: parent and child links agree, no node is twice in the tree, no node is its own ancestor.  A DocumentFragment is never a
   child; its parent link is only used for the content of a template. *)
Record forest (h : heap) : Prop := {
  child_has_parent : forall x c, In c (children h x) -> parent h c = Some x;
  parent_has_child : forall x c, parent h c = Some x -> ~ is_fragment h c -> In c (children h x);
  child_once : forall x, NoDup (children h x);
  child_no_fragment : forall x c, In c (children h x) -> ~ is_fragment h c;
  no_ancestor_cycle : forall x, ~ clos_trans nat (fun p c => parent h c = Some p) x x;
  only_allocated : forall x, (hnext h <= x)%nat -> parent h x = None /\ children h x = [] /\ content h x = None }.
(* ... and template contents hang below their template, so that following children and contents downwards always ends. *)
Record full_forest (h : heap) : Prop := {
  ff_forest : forest h;
  content_has_parent : forall x f, content h x = Some f -> parent h f = Some x /\ is_fragment h f;
  no_cycle : forall x, ~ clos_trans nat (below h) x x;
  traversal_ends : well_founded (fun y x => below h x y) }.

(* The tree of values at a node: class, name, namespace, attributes, data, metadata and flags, children and template content. *)
Record label := Label { l_kind : kind; l_name : str; l_ns : option str; l_attrs : option attr_list; l_data : doctype_data; l_meta : metadata;
                        l_end : bool; l_self : bool }.
Inductive tree := Tree (l : label) (children : option (list tree)) (content : option tree).
Definition label_at (h : heap) (x : nat) : label :=
  let c := cell_at h x in
  Label (kd c) (nm c) (ns c) (option_map (dict_at h) (attrs c)) (data c) (meta c) (end_tag c) (self_close c).
(* [x] stands for the tree [t] in [h], all its nodes satisfy [Q] and all its attribute dicts [R] *)
Fixpoint denotes (h : heap) (Q R : nat -> Prop) (x : nat) (t : tree) {struct t} : Prop :=
  match t with
  | Tree l ch tc =>
    Q x /\ (forall d, attrs (cell_at h x) = Some d -> R d) /\ l = label_at h x /\
    match kids (cell_at h x), ch with
    | None, None => True
    | Some ks, Some ts =>
      (fix all2 (ks : list nat) (ts : list tree) {struct ts} : Prop :=
         match ks, ts with
         | [], [] => True
         | k :: ks', t :: ts' => denotes h Q R k t /\ all2 ks' ts'
         | _, _ => False
         end) ks ts
    | _, _ => False
    end /\
    match tcon (cell_at h x), tc with
    | None, None => True
    | Some f, Some t' => denotes h Q R f t'
    | _, _ => False
    end
  end.

(* A sequence of calls.  Identifiers of objects that do not exist are refused (there is no such call in Python). *)
Inductive op :=
| OpNode (name : str) (a : option attr_list) (d : doctype_data) (n : option str)
| OpDocument | OpFragment | OpComment (d : option str) | OpPi (d : option str) | OpText (d : option str)
| OpElement (name : str) (a : option attr_list) (n : option str)
| OpTemplate (name : str) (a : option attr_list) (n : option str)
| OpAppend (self node : nat) | OpInsert (self node : nat) (ref : option nat) | OpReplace (self new old : nat) | OpRemove (self node : nat)
| OpClone (x : nat) (deep : bool) (ov : option attr_list).
Definition opt_data (d : option str) : doctype_data := match d with Some s => DStr s | None => DNone end.
Definition made (r : nat * heap) : ret unit := Ret tt (snd r).
Definition op_args (o : op) : list nat :=
  match o with
  | OpAppend s n => [s; n] | OpInsert s n None => [s; n] | OpInsert s n (Some r) => [s; n; r] | OpReplace s n o => [s; n; o]
  | OpRemove s n => [s; n] | OpClone x _ _ => [x] | _ => []
  end.
Definition run_op (fuel : nat) (h : heap) (o : op) : ret unit :=
  if forallb (fun x => (x <? hnext h)%nat) (op_args o) then
  match o with
  | OpNode name a d n => made (init_node KNode h name a d n)
  | OpDocument => made (new_document h)
  | OpFragment => made (new_fragment h)
  | OpComment d => made (new_comment h (opt_data d))
  | OpPi d => made (new_pi h (opt_data d))
  | OpText d => made (new_text h (opt_data d))
  | OpElement name a n => made (new_element KElement h name a n)
  | OpTemplate name a n => made (new_template h name a n)
  | OpAppend s n => append_child h s n
  | OpInsert s n r => insert_before h s n r
  | OpReplace s n o => rbind (replace_child h s n o) (fun _ h => Ret tt h)
  | OpRemove s n => remove_child h s n
  | OpClone x deep ov => rbind (clone_node fuel h x deep ov) (fun _ h => Ret tt h)
  end
  else Exn NoObject h.
(* the heaps that calls can lead to; exceptions are caught and the program goes on *)
Inductive reached : heap -> Prop :=
| r_start : reached empty_heap
| r_ret : forall fuel h o h', reached h -> run_op fuel h o = Ret tt h' -> reached h'
| r_exn : forall fuel h o e h', reached h -> run_op fuel h o = Exn e h' -> reached h'.
(* the node argument of the insertion methods *)
Definition inserted (o : op) : option nat :=
  match o with OpAppend _ n => Some n | OpInsert _ n _ => Some n | OpReplace _ n _ => Some n | _ => None end.
(* no call inserts the very object t.template_content of a template t *)
Definition not_content (h : heap) (o : op) : Prop := forall n x, inserted o = Some n -> content h x <> Some n.
Inductive reached_full : heap -> Prop :=
| rf_start : reached_full empty_heap
| rf_ret : forall fuel h o h', reached_full h -> not_content h o -> run_op fuel h o = Ret tt h' -> reached_full h'
| rf_exn : forall fuel h o e h', reached_full h -> not_content h o -> run_op fuel h o = Exn e h' -> reached_full h'.

(* What the methods do to children lists. *)
Definition removed (n : nat) (l : list nat) : list nat := filter (fun c => negb (c =? n)%nat) l.
(* [xs] put before the child [ref], or at the end *)
Definition put_before (ref : option nat) (xs l : list nat) : list nat :=
  match ref with
  | None => (l ++ xs)%list
  | Some r => (fix go l := match l with [] => [] | y :: t => if (y =? r)%nat then xs ++ y :: t else y :: go t end) l
  end%list.
(* [xs] put in the place of the child [old] *)
Definition put_instead (old : nat) (xs l : list nat) : list nat := flat_map (fun y => if (y =? old)%nat then xs else [y]) l.
(* nothing but parent and child links differs *)
Definition same_values (h h' : heap) : Prop :=
  hnext h' = hnext h /\ (forall x, label_at h' x = label_at h x) /\ (forall x, content h' x = content h x) /\
  (forall x, kids (cell_at h' x) = None <-> kids (cell_at h x) = None).
(* a node that is not a fragment moves below [self] *)
Definition moved (h h' : heap) (self node : nat) (new_children : list nat) : Prop :=
  children h' self = new_children /\ (forall y, y <> self -> children h' y = removed node (children h y)) /\
  parent h' node = Some self /\ same_values h h'.
(* all children of a fragment move below [self] *)
Definition emptied (h h' : heap) (self fragment : nat) (new_children : list nat) : Prop :=
  children h' self = new_children /\ children h' fragment = [] /\ (forall y, y <> self -> y <> fragment -> children h' y = children h y) /\
  (forall c, In c (children h fragment) -> parent h' c = Some self) /\ parent h' fragment = None /\ same_values h h'.
(* replace_child *)
Definition replaced (h h' : heap) (self new old : nat) : Prop :=
  In old (children h self) /\ parent h' old = None /\
  ((is_fragment h new /\ emptied h h' self new (put_instead old (children h new) (children h self))) \/
   (~ is_fragment h new /\ moved h h' self new (put_instead old [new] (removed new (children h self))))).
