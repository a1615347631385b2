(* SPECIFICATION: what the structural transforms mean, as plain recursions over the tree.  Of TransModel only the type of transforms
   and their arguments is used (in [ordinary], [local_t], [hoists]). *)
From Verif Require Import Str SerializerModel TextSpec PrettySpec TransModel.
Open Scope list_scope. Open Scope N_scope.

(* apply a list-valued rewriting of nodes to the children and template contents of a node *)
Definition inside (f : node -> list node) (n : node) : node :=
  match n with
  | NDocument cs => NDocument (flat_map f cs)
  | NElem name ns attrs cs tc => NElem name ns attrs (flat_map f cs) (match tc with Some l => Some (flat_map f l) | None => None end)
  | _ => n
  end.
Definition all_children (n : node) : list node :=
  match n with NDocument cs => cs | NElem _ _ _ cs tc => cs ++ match tc with Some l => l | None => [] end | _ => [] end.

(* elements that satisfy p are removed with their content *)
Fixpoint without (p : node -> bool) (n : node) : list node :=
  if p n then [] else
  match n with
  | NDocument cs => [NDocument (flat_map (without p) cs)]
  | NElem name ns attrs cs tc => [NElem name ns attrs (flat_map (without p) cs) (match tc with Some l => Some (flat_map (without p) l) | None => None end)]
  | _ => [n]
  end.
(* nodes that satisfy p are replaced by their content *)
Fixpoint unwrapped (p : node -> bool) (n : node) : list node :=
  match n with
  | NDocument cs => if p n then flat_map (unwrapped p) cs else [NDocument (flat_map (unwrapped p) cs)]
  | NElem name ns attrs cs tc =>
    if p n then flat_map (unwrapped p) cs ++ match tc with Some l => flat_map (unwrapped p) l | None => [] end
    else [NElem name ns attrs (flat_map (unwrapped p) cs) (match tc with Some l => Some (flat_map (unwrapped p) l) | None => None end)]
  | _ => if p n then [] else [n]
  end.
(* the same, except that an element that has just come out of an unwrapped one is left alone *)
Fixpoint half_unwrapped (p : node -> bool) (hoisted : bool) (n : node) : list node :=
  match n with
  | NDocument cs => [NDocument (flat_map (half_unwrapped p false) cs)]
  | NElem name ns attrs cs tc =>
    if negb hoisted && p n then flat_map (half_unwrapped p true) cs ++ match tc with Some l => flat_map (half_unwrapped p true) l | None => [] end
    else [NElem name ns attrs (flat_map (half_unwrapped p false) cs) (match tc with Some l => Some (flat_map (half_unwrapped p false) l) | None => None end)]
  | _ => [n]
  end.
(* nodes that satisfy p lose their content *)
Fixpoint emptied (p : node -> bool) (n : node) : node :=
  match n with
  | NDocument cs => NDocument (if p n then [] else map (emptied p) cs)
  | NElem name ns attrs cs tc =>
    NElem name ns attrs (if p n then [] else map (emptied p) cs) (match tc with Some l => Some (if p n then [] else map (emptied p) l) | None => None end)
  | _ => n
  end.
(* every element's attributes are replaced *)
Fixpoint relabelled (f : node -> list (str * option str)) (n : node) : node :=
  match n with
  | NDocument cs => NDocument (map (relabelled f) cs)
  | NElem name ns attrs cs tc =>
    NElem name ns (f n) (map (relabelled f) cs) (match tc with Some l => Some (map (relabelled f) l) | None => None end)
  | _ => n
  end.

(* a function of a node that does not look at its content *)
Inductive same_head : node -> node -> Prop :=
| h_same n : same_head n n
| h_document cs cs' : same_head (NDocument cs) (NDocument cs')
| h_element name ns attrs cs cs' tc tc' : same_head (NElem name ns attrs cs tc) (NElem name ns attrs cs' tc').
Definition local {A} (f : node -> A) : Prop := forall n m, same_head n m -> f n = f m.

(* transforms that look at one node at a time *)
Definition local_t (t : transform) : Prop :=
  match t with
  | TSetAttrs sel _ | TDrop sel | TUnwrap sel | TEmpty sel => local sel
  | TDecide sel fs => match sel with Some s => local s | None => True end /\ (forall f, In f fs -> local f)
  | TEditAttrs sel fs => match sel with Some s => local s | None => True end /\ (forall f, In f fs -> local f)
  | TDropComments | TDropDoctype => True
  | TCollapse _ _ _ => False
  end.
(* transforms that can put a node's children in its place *)
Definition hoists (t : transform) : Prop :=
  match t with
  | TUnwrap _ => True
  | TDecide _ fs => exists f n, In f fs /\ f n = AUnwrap
  | _ => False
  end.

(* The reference meaning of a list of transforms: one walk for each. *)
Definition one_by_one (ts : list transform) (n : node) : option node := apply_batches (map (fun t => [t]) ts) n.

(* transforms that never remove an element together with what is in it *)
Definition keeps_text (t : transform) : Prop :=
  match t with
  | TSetAttrs _ _ | TUnwrap _ | TEditAttrs _ _ | TDropComments | TDropDoctype => True
  | TDecide (Some _) fs => forall f n, In f fs -> f n = AKeep \/ f n = AUnwrap
  | _ => False
  end.
