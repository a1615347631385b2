(* SPECIFICATION for C61: what a select element's selectedcontent elements are to show.  https://html.spec.whatwg.org/multipage/form-elements.html
   (the select element, "get the select's enabled selectedcontent" and the display size of 1); no reference to the parser's passes. *)
From Coq Require Import List Arith Bool.
From Verif Require Import Str.
From Verif Require Import FinishSpec SelectModel.
Import ListNotations.
Open Scope list_scope. Open Scope nat_scope.

(* what one sees: the nodes without their identity *)
Inductive seen := V (what : item) (below : list seen).
Fixpoint view (inf : nat -> item) (t : tree) : seen := let 'T n l := t in V (inf n) (map (view inf) l).

(* the option elements of a select in document order, each with the information whether it or an optgroup around it is disabled; what is in a datalist does not count *)
Fixpoint options (inf : nat -> item) (off : bool) (t : tree) : list (tree * bool) :=
  let 'T n l := t in
  let i := inf n in
  (if name_is (u "option") i then [(t, off || has_attr (u "disabled") i)] else []) ++
  (if name_is (u "datalist") i then [] else flat_map (options inf (off || name_is (u "optgroup") i && has_attr (u "disabled") i)) l).
Definition last_of {A} (l : list A) : option A := hd_error (rev l).
(* the chosen one: the last with the attribute selected (the first, if several may be chosen), else the first that is not disabled *)
Definition choice (inf : nat -> item) (select : tree) : option tree :=
  let all := flat_map (options inf false) (below select) in
  let marked := filter (fun o => has_attr (u "selected") (inf (root o))) (map fst all) in
  match (if has_attr (u "multiple") (inf (root select)) then hd_error marked else last_of marked) with
  | Some o => Some o
  | None => hd_error (map fst (filter (fun o => negb (snd o)) all))
  end.
(* neighbouring texts become one *)
Fixpoint joined (l : list seen) : list seen :=
  match l with
  | [] => []
  | x :: r => match x, joined r with V (Txt a) k, V (Txt b) _ :: q => V (Txt (a ++ b)%list) k :: q | _, q => x :: q end
  end.
(* what the select is to look like: every selectedcontent outside the chosen option has the content of the option, the rest is as before.  full = false: selectedcontent elements may
   be left empty, too *)
Inductive shown (inf : nat -> item) (o : nat -> bool) (content : list seen) (full : bool) : tree -> seen -> Prop :=
| in_option n l : o n = true -> shown inf o content full (T n l) (view inf (T n l))
| marker n l : o n = false -> name_is (u "selectedcontent") (inf n) = true -> shown inf o content full (T n l) (V (inf n) content)
| cut n l : o n = false -> name_is (u "selectedcontent") (inf n) = true -> full = false -> shown inf o content full (T n l) (V (inf n) [])
| other n l k : o n = false -> name_is (u "selectedcontent") (inf n) = false -> Forall2 (shown inf o content full) l k -> shown inf o content full (T n l) (V (inf n) k).
Definition mirrored (inf : nat -> item) (full : bool) (select : tree) (k : list seen) : Prop :=
  match choice inf select with
  | Some c => Forall2 (shown inf (Nat.eqb (root c)) (joined (map (view inf) (below c))) full) (below select) k
  | None => Forall2 (shown inf (fun _ => false) [] full) (below select) k
  end.
(* how many nodes have to be copied *)
Definition cost (inf : nat -> item) (select : tree) : nat :=
  List.length (filter (fun x => name_is (u "selectedcontent") (inf x)) (flat_map ids (below select))) *
  match choice inf select with Some c => List.length (flat_map ids (below c)) | None => 0 end.

(* a whole document in which no select is inside a select *)
Inductive doc_shown (inf : nat -> item) (full : bool) : tree -> seen -> Prop :=
| d_select n l k : name_is (u "select") (inf n) = true -> mirrored inf full (T n l) k -> doc_shown inf full (T n l) (V (inf n) k)
| d_other n l k : name_is (u "select") (inf n) = false -> Forall2 (doc_shown inf full) l k -> doc_shown inf full (T n l) (V (inf n) k).
Fixpoint total_cost (inf : nat -> item) (t : tree) : nat :=
  let 'T n l := t in if name_is (u "select") (inf n) then cost inf t else fold_right (fun t c => total_cost inf t + c) 0 l.
Definition no_nested (inf : nat -> item) (t : tree) : Prop :=
  forall s, In s (subtrees t) -> name_is (u "select") (inf (root s)) = true -> forall x, In x (flat_map ids (below s)) -> name_is (u "select") (inf x) = false.
