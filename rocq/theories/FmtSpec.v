(* SPECIFICATION for C53: the list of active formatting elements of the HTML standard (13.2.4.3), as a plain list *)
From Verif Require Import Str FmtModel.
Open Scope N_scope.

(* an element carries the name and attributes of the token it was created for; id tells equal ones apart *)
Inductive item := AMarker | AElem (id : N) (name : str) (a : attrs).
(* what is live in the program's list *)
Fixpoint view (l : list slot) : list item :=
  match l with
  | [] => []
  | None :: t => AMarker :: view t
  | Some e :: t => if e_live e then AElem (e_id e) (e_name e) (signature e) :: view t else view t
  end.
(* same tag name, and the same set of attributes with the same values *)
Definition noah_same (n : str) (a : attrs) (x : item) : Prop := match x with AMarker => False | AElem _ n' a' => n' = n /\ forall p, In p a' <-> In p a end.
(* the elements after the last marker *)
Inductive after_marker : list item -> list item -> Prop :=
| am_none l : ~ In AMarker l -> after_marker l l
| am_some p l : ~ In AMarker l -> after_marker (p ++ AMarker :: l) l.
Inductive count {A} (P : A -> Prop) : list A -> nat -> Prop :=
| count_nil : count P [] 0
| count_yes x l k : P x -> count P l k -> count P (x :: l) (S k)
| count_no x l k : ~ P x -> count P l k -> count P (x :: l) k.

(* push onto the list: if there are three same elements after the last marker, the earliest of them goes *)
Inductive noah_push (id : N) (n : str) (a : attrs) : list item -> list item -> Prop :=
| noah_room l s k : after_marker l s -> count (noah_same n a) s k -> (k < 3)%nat -> noah_push id n a l (l ++ [AElem id n a])
| noah_full p l1 x l2 k : ~ In AMarker (l1 ++ x :: l2) -> after_marker (p ++ l1 ++ x :: l2) (l1 ++ x :: l2) ->
    count (noah_same n a) (l1 ++ x :: l2) k -> (3 <= k)%nat -> noah_same n a x -> (forall y, In y l1 -> ~ noah_same n a y) ->
    noah_push id n a (p ++ l1 ++ x :: l2) (p ++ l1 ++ l2 ++ [AElem id n a]).
(* the last element with that name after the last marker *)
Definition named (n : str) (x : item) : Prop := match x with AMarker => False | AElem _ n' _ => n' = n end.
Inductive last_named (n : str) : list item -> option item -> Prop :=
| ln_some l s s1 x s2 : after_marker l s -> s = s1 ++ x :: s2 -> named n x -> (forall y, In y s2 -> ~ named n y) -> last_named n l (Some x)
| ln_none l s : after_marker l s -> (forall y, In y s -> ~ named n y) -> last_named n l None.
Definition without (id : N) (l : list item) : list item := filter (fun x => match x with AMarker => true | AElem i _ _ => negb (i =? id) end) l.
Definition id_of (x : item) : option N := match x with AMarker => None | AElem i _ _ => Some i end.

(* one operation of the standard's list; next: the id a new element gets *)
Inductive step (next : N) : op -> list item -> list item -> Prop :=
| st_prepare l : step next Prepare l l
| st_compact l : step next Compact l l
| st_push n a stored compiled l l' : noah_push next n a l l' -> step next (Push n a stored compiled) l l'
| st_fast n a l l' : noah_push next n a l l' -> step next (PushFast n a) l l'
| st_marker l : step next Marker l (l ++ [AMarker])
| st_clear_all l : ~ In AMarker l -> step next Clear l []
| st_clear p s : ~ In AMarker s -> step next Clear (p ++ AMarker :: s) p
| st_retire id l : (exists n a, In (AElem id n a) l) -> step next (Retire id) l (without id l)
| st_remove_none n l : last_named n l None -> step next (RemoveLast n) l l
| st_remove n l id a : last_named n l (Some (AElem id n a)) -> step next (RemoveLast n) l (without id l)
(* the adoption agency: the formatting element goes, its clone comes to some place after the last marker *)
| st_replace id position n a p s1 s2 l : without id l = p ++ s1 ++ s2 -> after_marker (p ++ s1 ++ s2) (s1 ++ s2) -> In (AElem id n a) l ->
    step next (Replace id position) l (p ++ s1 ++ AElem next n a :: s2).
