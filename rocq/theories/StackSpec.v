(* SPECIFICATION for C38: the stack of open elements as a plain list, and lookups as statements about that list *)
From Coq Require Import ZArith.
From Verif Require Import Str StackModel.
Open Scope N_scope.

(* Python's list operations *)
Definition py_index (z : Z) (len : nat) : option nat :=
  let k := if (z <? 0)%Z then (z + Z.of_nat len)%Z else z in if (k <? 0)%Z || (Z.of_nat len <=? k)%Z then None else Some (Z.to_nat k).
Definition py_bound (z : Z) (len : nat) : nat :=
  let k := if (z <? 0)%Z then (z + Z.of_nat len)%Z else z in Z.to_nat (Z.min (Z.max k 0) (Z.of_nat len)).
Fixpoint keep_where (f : nat -> bool) (i : nat) (l : list item) : list item :=
  match l with [] => [] | y :: t => if f i then y :: keep_where f (S i) t else keep_where f (S i) t end.
Definition without_index (z : Z) (l : list item) : option (list item) :=
  match py_index z (List.length l) with Some k => Some (firstn k l ++ skipn (S k) l)%list | None => None end.
Fixpoint without_first (it : item) (l : list item) : option (list item) :=
  match l with [] => None | y :: t => if i_id y =? i_id it then Some t else match without_first it t with Some t' => Some (y :: t') | None => None end end.
Definition plain (o : op) (l : list item) : option (list item) :=
  match o with
  | Append it => Some (l ++ [it])%list
  | Insert z it => let k := py_bound z (List.length l) in Some (firstn k l ++ it :: skipn k l)%list
  | SetItem z it => match py_index z (List.length l) with Some k => Some (firstn k l ++ it :: skipn (S k) l)%list | None => None end
  | Pop z | DelItem z => without_index z l
  | Remove it => without_first it l
  | DelSlice a b step =>
    let a := match a with Some z => py_bound z (List.length l) | None => O end in
    let b := match b with Some z => py_bound z (List.length l) | None => List.length l end in
    Some (keep_where (fun i => negb ((a <=? i)%nat && (i <? b)%nat && ((i - a) mod step =? 0)%nat)) O l)
  end.
(* a node is on the stack at most once: the operations the parser uses put only nodes on it that are not there *)
Definition absent (it : item) (l : list item) : Prop := forall y, In y l -> i_id y <> i_id it.
Definition fresh_op (o : op) (l : list item) : Prop :=
  match o with
  | Append it | Insert _ it => absent it l
  | SetItem z it => forall k, py_index z (List.length l) = Some k -> absent it (firstn k l ++ skipn (S k) l)
  | DelSlice _ _ step => step <> O
  | Remove it => forall y, In y l -> i_id y = i_id it -> y = it
  | _ => True
  end.
(* r: the position of the topmost element satisfying P, the bottom of the stack (position 0) not counted *)
Definition topmost (P : item -> Prop) (l : list item) (r : option nat) : Prop :=
  match r with
  | Some i => (1 <= i)%nat /\ (exists it, nth_error l i = Some it /\ P it) /\ forall j it, (i < j)%nat -> nth_error l j = Some it -> ~ P it
  | None => forall j it, (1 <= j)%nat -> nth_error l j = Some it -> ~ P it
  end.
Definition or_minus1 (r : option nat) : Z := match r with Some i => Z.of_nat i | None => (-1)%Z end.
(* namespaces *)
Definition html_element (it : item) : Prop := i_ns it = None \/ i_ns it = Some (u "html").
Definition marker (it : item) : Prop := i_ns it = Some (u "justhtml-parser-only").
(* HTML and MathML text integration points *)
Definition integration_point (it : item) : Prop :=
  (i_ns it = Some (u "svg") /\ In (i_name it) [u "foreignObject"; u "desc"; u "title"]) \/
  (i_ns it = Some (u "math") /\ In (i_name it) [u "mi"; u "mo"; u "mn"; u "ms"; u "mtext"]) \/
  (i_ns it = Some (u "math") /\ i_name it = u "annotation-xml" /\
   exists a k v b, i_attrs it = (a ++ (k, Some v) :: b)%list /\ lower k = u "encoding" /\ (forall k' v', In (k', v') a -> lower k' <> u "encoding") /\
     In (lower v) [u "text/html"; u "application/xhtml+xml"]).
Definition template (it : item) : Prop := i_name it = u "template" /\ (marker it \/ (i_template it = true /\ html_element it)).
Definition not_bottom (P : item -> Prop) (l : list item) : Prop := match l with it :: _ => ~ P it | [] => True end.
(* a history of operations on the plain list; None: some operation raises *)
Fixpoint plain_run (ops : list op) (l : list item) : option (list item) :=
  match ops with [] => Some l | o :: t => match plain o l with Some l' => plain_run t l' | None => None end end.
Fixpoint fresh_ops (ops : list op) (l : list item) : Prop :=
  match ops with [] => True | o :: t => fresh_op o l /\ forall l', plain o l = Some l' -> fresh_ops t l' end.
Definition distinct (l : list item) : Prop := NoDup (map i_id l).
Definition html_named_in (names : list str) (it : item) : Prop := html_element it /\ In (i_name it) names.
Definition boundary (names : list str) (it : item) : Prop := html_named_in names it \/ integration_point it.
