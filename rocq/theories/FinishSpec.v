(* SPECIFICATION for C60: trees of nodes, and what it means to take nodes out of a tree.  No reference to the parser's passes. *)
From Coq Require Import List Arith Bool.
From Verif Require Import FinishModel.
Import ListNotations.

Inductive tree := T (id : nat) (below : list tree).
Definition root (t : tree) : nat := let 'T i _ := t in i.
Definition below (t : tree) : list tree := let 'T _ l := t in l.
(* all nodes, in document order *)
Fixpoint ids (t : tree) : list nat := let 'T i l := t in i :: flat_map ids l.
(* the elements in M are replaced by their children *)
Fixpoint hoist (M : nat -> bool) (t : tree) : list tree := let 'T i l := t in if M i then flat_map (hoist M) l else [T i (flat_map (hoist M) l)].
(* the elements in D go, and all they contain *)
Fixpoint prune (D : nat -> bool) (t : tree) : list tree := let 'T i l := t in if D i then [] else [T i (flat_map (prune D) l)].
(* the same below the root, which stays *)
Definition unwrapped (M : nat -> bool) (t : tree) : tree := T (root t) (flat_map (hoist M) (below t)).
Definition dropped (D : nat -> bool) (t : tree) : tree := T (root t) (flat_map (prune D) (below t)).

(* the links between the nodes are those of a forest: a node is among the children of its parent, once, and only there, and there is no
   cycle.  depth: some number that grows from parent to child *)
Record forest (h : heap) : Prop := Forest {
  f_links : forall p c, In c (kids h p) <-> par h c = Some p;
  f_once : forall p, NoDup (kids h p);
  f_size : forall p c, par h c = Some p -> c < size h;
  f_depth : exists depth bound, (forall p c, par h c = Some p -> depth p < depth c) /\ (forall x, depth x < bound)
}.
(* t is what one finds below its root *)
Fixpoint shows (h : heap) (t : tree) : Prop := let 'T i l := t in kids h i = map root l /\ (fix all l := match l with [] => True | x :: r => shows h x /\ all r end) l.
(* y is the node x or below it *)
Fixpoint subtrees (t : tree) : list tree := let 'T _ l := t in t :: flat_map subtrees l.
Definition inside (t : tree) (x y : nat) : Prop := exists s, In s (subtrees t) /\ root s = x /\ In y (ids s).
