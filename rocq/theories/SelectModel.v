(* MODEL of the copying of the chosen option into selectedcontent elements: parser/engine.py:1705-1711, 6050-6160 and dom/__init__.py:658-735.
   Nodes are numbered, and a tree of numbers (FinishSpec.tree) stands for the children lists; what the nodes are is looked up by number.
   Everything happens inside the select element that is being visited, so each step gives back the changed subtree instead of
   changing it in place.  Simplifications: templates are not modelled (the default policies never build one); the walks with an explicit stack are written
   as recursions that visit in the same order. *)
From Coq Require Import List Arith Bool.
From Verif Require Import Str.
From Verif Require Import FinishModel FinishSpec.
Import ListNotations.
Open Scope list_scope. Open Scope nat_scope.

(* dom/__init__.py: Element(name, attrs, namespace), Text(data), anything else *)
Inductive item := Elem (name ns : str) (attrs : list (str * str)) | Txt (data : str) | Other.
(* the part of the engine's state that is read and changed.  next: the next number; remaining: how many nodes may still be copied *)
Record st := St { info : nat -> item; next : nat; drops : list nat; unwraps : list nat; remaining : nat }.
Definition name_is (n : str) (i : item) : bool := match i with Elem m _ _ => str_eqb m n | _ => false end.
Definition has_attr (a : str) (i : item) : bool := match i with Elem _ _ l => existsb (fun kv => str_eqb (fst kv) a) l | _ => false end.
Definition is_elem (i : item) : bool := match i with Elem _ _ _ => true | _ => false end.

(* engine.py:6069-6073 *)
Record scan := Scan { markers : list (nat * nat); spans : list (nat * (nat * nat)); selected : option tree; first : option tree; position : nat }.
(* engine.py:6076-6110 the loop, for one node and what is below it.  The entry that is pushed with leaving=True comes up after all
   that is below.  is_select: node is select *)
Fixpoint scan_tree (inf : nat -> item) (multiple is_select disabled datalist : bool) (t : tree) (s : scan) : scan :=
  let 'T n l := t in
  let i := inf n in
  let here := S (position s) in
  let s := Scan (markers s) (spans s) (selected s) (first s) here in
  let inner := negb is_select && is_elem i in
  let s := if inner && name_is (u "selectedcontent") i then Scan (markers s ++ [(n, here)]) (spans s) (selected s) (first s) here else s in
  let opt := inner && name_is (u "option") i && negb datalist in
  let s := if opt then
      let f := match first s with Some o => Some o | None => if negb disabled && negb (has_attr (u "disabled") i) then Some t else None end in
      let c := if has_attr (u "selected") i then (if multiple then match selected s with None => Some t | Some o => Some o end else Some t) else selected s in
      Scan (markers s) (spans s) c f here
    else s in
  let disabled := disabled || (name_is (u "optgroup") i && has_attr (u "disabled") i) in
  let datalist := datalist || name_is (u "datalist") i in
  let s := fold_left (fun s t => scan_tree inf multiple false disabled datalist t s) l s in
  if opt then Scan (markers s) ((n, (here, position s)) :: spans s) (selected s) (first s) (position s) else s.
Fixpoint span_of (n : nat) (l : list (nat * (nat * nat))) : option (nat * nat) := match l with [] => None | (m, v) :: t => if m =? n then Some v else span_of n t end.

(* dom/__init__.py:658-666, 702-735 clone_node(deep=True): the copies are numbered in document order *)
Fixpoint clone (t : tree) (s : st) : tree * st :=
  let 'T n l := t in
  let c := next s in
  let s := St (upd (info s) c (info s n)) (S c) (drops s) (unwraps s) (remaining s) in
  let '(l, s) := (fix go l s := match l with [] => ([], s) | x :: r => let '(x, s) := clone x s in let '(r, s) := go r s in (x :: r, s) end) l s in
  (T c l, s).
(* engine.py:6143-6160 _record_projected_sanitization.  dropped and unwrapped are the sets that _project_selectedcontent builds at its start.
   zip with strict=True never fails here: a copy has as many children as its original *)
Fixpoint record (dropped unwrapped : list nat) (o c : tree) (s : st) : st :=
  let 'T n l := o in let 'T m k := c in
  let s := if mem n dropped then St (info s) (next s) (drops s ++ [m]) (unwraps s) (remaining s)
           else if mem n unwrapped then St (info s) (next s) (drops s) (unwraps s ++ [m]) (remaining s) else s in
  (fix go l k s := match l, k with x :: r, y :: q => record dropped unwrapped x y (go r q s) | _, _ => s end) l k s.
(* engine.py:1705-1711 _append: a text next to a text is merged into it.  l: the children so far, back to front *)
Definition append (l : list tree) (c : tree) (s : st) : list tree * st :=
  match info s (root c), l with
  | Txt d, p :: _ => match info s (root p) with
                     | Txt e => (l, St (upd (info s) (root p) (Txt (e ++ d)%list)) (next s) (drops s) (unwraps s) (remaining s))
                     | _ => (c :: l, s)
                     end
  | _, _ => (c :: l, s)
  end.
(* engine.py:6126-6129 *)
Fixpoint copy_in (dropped unwrapped : list nat) (kids : list tree) (l : list tree) (s : st) : list tree * st :=
  match kids with
  | [] => (rev l, s)
  | k :: r => let '(c, s) := clone k s in
              let s := record dropped unwrapped k c s in
              let '(l, s) := append l c s in
              copy_in dropped unwrapped r l s
  end.
(* node.children = new *)
Fixpoint set_below (n : nat) (new : list tree) (t : tree) : tree := let 'T i l := t in if i =? n then T i new else T i (map (set_below n new) l).
(* engine.py:6116-6129 the loop over the markers.  A marker that an earlier one has detached is not found in the tree any more, but is filled all the same *)
Fixpoint fill_markers (dropped unwrapped : list nat) (chosen : option tree) (span : option (nat * nat)) (ms : list (nat * nat)) (t : tree) (s : st) : tree * st :=
  match ms with
  | [] => (t, s)
  | (m, pos) :: r =>
    if match span with Some (a, b) => (a <? pos) && (pos <=? b) | None => false end then fill_markers dropped unwrapped chosen span r t s
    else
      match chosen with
      | Some (T _ kids) =>
        let size := List.length (flat_map ids kids) in
        if size <=? remaining s then
          let s := St (info s) (next s) (drops s) (unwraps s) (remaining s - size) in
          let '(new, s) := copy_in dropped unwrapped kids [] s in
          fill_markers dropped unwrapped chosen span r (set_below m new t) s
        else fill_markers dropped unwrapped chosen span r (set_below m [] t) s
      | None => fill_markers dropped unwrapped chosen span r (set_below m [] t) s
      end
  end.
(* engine.py:6066-6130 _project_select_selectedcontent *)
Definition project_select (dropped unwrapped : list nat) (t : tree) (s : st) : tree * st :=
  let sc := scan_tree (info s) (has_attr (u "multiple") (info s (root t))) true false false t (Scan [] [] None None 0) in
  let chosen := match selected sc with Some o => Some o | None => first sc end in
  match markers sc with
  | [] => (t, s)
  | ms => fill_markers dropped unwrapped chosen (match chosen with Some o => span_of (root o) (spans sc) | None => None end) ms t s
  end.
(* engine.py:6050-6064 _project_selectedcontent: None if fuel runs out.  fuel bounds the depth *)
Fixpoint walk (fuel : nat) (dropped unwrapped : list nat) (t : tree) (s : st) : option (tree * st) :=
  match fuel with
  | O => None
  | S fuel =>
    if is_elem (info s (root t)) then
      let '(T n l, s) := if name_is (u "select") (info s (root t)) then project_select dropped unwrapped t s else (t, s) in
      match (fix go l s := match l with
                           | [] => Some ([], s)
                           | x :: r => match walk fuel dropped unwrapped x s with
                                       | None => None
                                       | Some (x, s) => match go r s with None => None | Some (r, s) => Some (x :: r, s) end
                                       end
                           end) l s with
      | None => None
      | Some (l, s) => Some (T n l, s)
      end
    else Some (t, s)
  end.
(* the children of the root are visited from the last to the first *)
Fixpoint walk_all (fuel : nat) (dropped unwrapped : list nat) (l : list tree) (s : st) : option (list tree * st) :=
  match l with
  | [] => Some ([], s)
  | x :: r => match walk_all fuel dropped unwrapped r s with
              | None => None
              | Some (r, s) => match walk fuel dropped unwrapped x s with None => None | Some (x, s) => Some (x :: r, s) end
              end
  end.
Definition project_all (t : tree) (s : st) : option (tree * st) :=
  let 'T n l := t in
  match walk_all (S (List.length (ids t) + remaining s)) (drops s) (unwraps s) l s with None => None | Some (l, s) => Some (T n l, s) end.
