(* MODEL of the last passes of a parse with the built-in default policies: parser/engine.py:1697-1702, 1865-1878, 5979-6048, 6162-6175 and
   6595-6598.  While the tree is built, elements that must not appear in the result are inserted like any other and recorded; these passes
   take them out.  A node is a number; None as a result stands for a Python exception (ValueError of list.index and list.remove,
   AttributeError on None) or for running out of fuel, which the theorems exclude. *)
From Coq Require Import List Arith Bool.
Import ListNotations.

(* dom/__init__.py: the attributes children and parent of the nodes.  A node that cannot have children has the empty list.  size: how many
   nodes have been created *)
Record heap := Heap { kids : nat -> list nat; par : nat -> option nat; size : nat }.
Definition upd {A} (f : nat -> A) (x : nat) (v : A) : nat -> A := fun y => if y =? x then v else f y.
Definition set_kids (x : nat) (l : list nat) (h : heap) : heap := Heap (upd (kids h) x l) (par h) (size h).
Definition set_par (x : nat) (p : option nat) (h : heap) : heap := Heap (kids h) (upd (par h) x p) (size h).
(* for child in l: child.parent = p *)
Definition adopt (l : list nat) (p : nat) (h : heap) : heap := fold_left (fun h c => set_par c (Some p) h) l h.
(* node in set *)
Definition mem (x : nat) (l : list nat) : bool := existsb (Nat.eqb x) l.
(* list.index and list.remove: == on nodes is identity *)
Fixpoint index_of (x : nat) (l : list nat) : option nat :=
  match l with [] => None | y :: t => if y =? x then Some 0 else option_map S (index_of x t) end.
(* l[i : i + 1] = new *)
Definition splice (i : nat) (new l : list nat) : list nat := (firstn i l ++ new ++ skipn (S i) l)%list.

(* engine.py:6162-6175 _unwrap_node *)
Definition unwrap_node (n : nat) (h : heap) : option heap :=
  match par h n with
  | None => None
  | Some p =>
    match index_of n (kids h p) with
    | None => None
    | Some i =>
      let children := kids h p in
      let moved := kids h n in
      let h := set_kids n [] h in
      let h := match moved with
               | [] => set_kids p (splice i [] children) h
               | _ => set_kids p (splice i moved children) (adopt moved p h)
               end in
      Some (set_par n None h)
    end
  end.
(* engine.py:5981-5986, the nodes given in the order in which they are visited *)
Fixpoint unwrap_each (l : list nat) (h : heap) : option heap :=
  match l with
  | [] => Some h
  | n :: t => match par h n with
              | None => unwrap_each t h
              | Some _ => match unwrap_node n h with None => None | Some h => unwrap_each t h end
              end
  end.

(* engine.py:6029-6040 the loop.  The stack is given with its top first, expanded back to front *)
Fixpoint expand_loop (fuel : nat) (p : nat) (marked : list nat) (pending expanded : list nat) (h : heap) : option (list nat * heap) :=
  match pending with
  | [] => Some (rev expanded, h)
  | child :: rest =>
    match fuel with
    | O => None
    | S fuel =>
      if negb (mem child marked) then expand_loop fuel p marked rest (child :: expanded) h
      else
        let grandchildren := kids h child in
        let h := set_par child None (set_kids child [] h) in
        expand_loop fuel p marked (grandchildren ++ rest)%list expanded (adopt grandchildren p h)
    end
  end.
(* engine.py:6014-6040 _expanded_children *)
Definition expanded_children (p n : nat) (marked nesting : list nat) (h : heap) : option (list nat * heap) :=
  let moved := kids h n in
  let h := adopt moved p (set_par n None (set_kids n [] h)) in
  if negb (mem n nesting) then Some (moved, h) else expand_loop (size h) p marked moved [] h.

(* engine.py:5988-5998 holders, a dictionary in insertion order, and nesting *)
Fixpoint put_holder (p : nat) (n : nat) (d : list (nat * option nat)) : list (nat * option nat) :=
  match d with
  | [] => [(p, Some n)]
  | (q, v) :: t => if q =? p then (q, None) :: t else (q, v) :: put_holder p n t
  end.
Fixpoint survey (marked l : list nat) (h : heap) (holders : list (nat * option nat)) (nesting : list nat) : list (nat * option nat) * list nat :=
  match l with
  | [] => (holders, nesting)
  | n :: t =>
    match par h n with
    | None => survey marked t h holders nesting
    | Some p => if mem p marked then survey marked t h holders (p :: nesting) else survey marked t h (put_holder p n holders) nesting
    end
  end.
(* engine.py:6005-6011 *)
Fixpoint project (p : nat) (marked nesting l : list nat) (h : heap) : option (list nat * heap) :=
  match l with
  | [] => Some ([], h)
  | child :: t =>
    if mem child marked then
      match expanded_children p child marked nesting h with
      | None => None
      | Some (new, h) => match project p marked nesting t h with None => None | Some (rest, h) => Some ((new ++ rest)%list, h) end
      end
    else match project p marked nesting t h with None => None | Some (rest, h) => Some (child :: rest, h) end
  end.
(* engine.py:5999-6011 *)
Fixpoint fill (marked nesting : list nat) (holders : list (nat * option nat)) (h : heap) : option heap :=
  match holders with
  | [] => Some h
  | (p, Some only) :: t =>
    match index_of only (kids h p) with
    | None => None
    | Some i =>
      let children := kids h p in
      match expanded_children p only marked nesting h with
      | None => None
      | Some (new, h) => fill marked nesting t (set_kids p (splice i new children) h)
      end
    end
  | (p, None) :: t =>
    match project p marked nesting (kids h p) h with
    | None => None
    | Some (new, h) => fill marked nesting t (set_kids p new h)
    end
  end.
Definition unwrap_batch (l : list nat) (h : heap) : option heap :=
  let '(holders, nesting) := survey l l h [] [] in fill l nesting holders h.
(* engine.py:5979-6012 _unwrap_recorded_nodes; 729: _UNWRAP_BATCH_THRESHOLD = 32 *)
Definition unwrap_recorded (l : list nat) (h : heap) : option heap :=
  if List.length l <? 32 then unwrap_each (rev l) h else unwrap_batch l h.

(* engine.py:6595-6598 _remove_child *)
Definition remove_child (p n : nat) (h : heap) : option heap :=
  match index_of n (kids h p) with None => None | Some i => Some (set_par n None (set_kids p (splice i [] (kids h p)) h)) end.
(* engine.py:6042-6048 _drop_recorded_nodes, the nodes given in the order in which they are visited *)
Fixpoint drop_each (l : list nat) (h : heap) : option heap :=
  match l with
  | [] => Some h
  | n :: t => match par h n with
              | None => drop_each t h
              | Some p => match remove_child p n h with None => None | Some h => drop_each t h end
              end
  end.
Definition drop_recorded (l : list nat) (h : heap) : option heap := drop_each (rev l) h.

(* engine.py:1865-1878 _finish_fragment_context *)
Definition finish_context (root context : nat) (h : heap) : heap :=
  match index_of context (kids h root) with
  | None => h
  | Some i =>
    let children := kids h root in
    let replacement := kids h context in
    set_par context None (set_kids context [] (set_kids root (splice i replacement children) (adopt replacement root h)))
  end.
(* engine.py:1697-1702 the end of parse *)
Definition finish (root : nat) (context : option nat) (drops unwraps : list nat) (h : heap) : option heap :=
  match (match drops with [] => Some h | _ => drop_recorded drops h end) with
  | None => None
  | Some h =>
    match (match unwraps with [] => Some h | _ => unwrap_recorded unwraps h end) with
    | None => None
    | Some h => Some (match context with None => h | Some c => finish_context root c h end)
    end
  end.
