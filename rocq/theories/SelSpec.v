(* SPECIFICATION: what it means, in CSS, for an element to match a selector.  Written with the tree relations parent / children only. *)
From Verif Require Import Str SerializerModel SanModel DomModel DomSpec SelModel.
From Coq Require Import ZArith.
Open Scope nat_scope.

(* Selectors, as in SelModel: a selector is a list of alternatives; an alternative is a list of parts, each with the combinator on its left;
   a part is a list of simple selectors.  The numbers [cid] carry no meaning. *)

Section CSS.
  Variable h : heap.
  Definition node_name (x : nat) : str := nm (cell_at h x).
  (* An element is a node that is not a text, comment, processing instruction, document or fragment.  (A doctype node has the name
     !doctype and counts as an element here; see C30_doctype_refuted.) *)
  Definition is_element (x : nat) : Prop := starts (u "#") (node_name x) = false.
  Definition sibling_list (x : nat) (l1 l2 : list nat) : Prop := exists p, parent h x = Some p /\ children h p = (l1 ++ x :: l2)%list.

  (* attributes: names are compared in lower case, a missing value counts as empty, the last of several equal names counts *)
  Definition has_attr (x : nat) (n v : str) : Prop :=
    exists d l1 l2 k w, attrs (cell_at h x) = Some d /\ dict_at h d = (l1 ++ (k, w) :: l2)%list /\ lower k = n /\
      (forall k' w', In (k', w') l2 -> lower k' <> n) /\ v = match w with Some s => s | None => [] end.
  Definition substring (a b : str) : Prop := exists l r, b = (l ++ a ++ r)%list.
  (* one of the words of [s], words being separated by white space (all that Python's str.split() takes for it) *)
  Definition word_of (w s : str) : Prop :=
    w <> [] /\ forallb (fun c => negb (is_space c)) w = true /\
    exists l r, s = (l ++ w ++ r)%list /\ (l = [] \/ exists l' c, l = (l' ++ [c])%list /\ is_space c = true) /\
                (r = [] \/ exists c r', r = c :: r' /\ is_space c = true).
  Definition attr_sat (v : str) (o : option (attr_op * str)) : Prop :=
    match o with
    | None => True
    | Some (OpEq, w) => v = w
    | Some (OpWord, w) => word_of w v
    | Some (OpDash, w) => v = w \/ exists r, v = (w ++ 45%N :: r)%list
    | Some (OpPrefix, w) => w <> [] /\ exists r, v = (w ++ r)%list
    | Some (OpSuffix, w) => w <> [] /\ exists l, v = (l ++ w)%list
    | Some (OpSub, w) => w <> [] /\ substring w v
    end.

  (* the index of [x] (from 1) among the siblings that are elements and satisfy [want] *)
  Definition nth_among (want : nat -> Prop) (x : nat) (i : Z) : Prop :=
    exists l1 l2 js, sibling_list x l1 l2 /\ i = (Z.of_nat (List.length js) + 1)%Z /\
      (* [js]: those of [l1] *)
      NoDup js /\ (forall y, In y js <-> In y l1 /\ is_element y /\ want y).
  Definition an_plus_b (a b i : Z) : Prop := exists n, (0 <= n)%Z /\ i = (a * n + b)%Z.
  Definition same_name (x y : nat) : Prop := lower (node_name y) = lower (node_name x).
  Definition no_element (want : nat -> Prop) (l : list nat) : Prop := forall y, In y l -> ~ (is_element y /\ want y).
  Definition any (_ : nat) : Prop := True.
  Definition first_among (want : nat -> Prop) (x : nat) : Prop := exists l1 l2, sibling_list x l1 l2 /\ no_element want l1.
  Definition last_among (want : nat -> Prop) (x : nat) : Prop := exists l1 l2, sibling_list x l1 l2 /\ no_element want l2.

  (* the text below a node: its text nodes without surrounding white space, the empty ones left out, in order, joined by spaces *)
  Inductive texts : nat -> list str -> Prop :=
  | texts_text : forall x s, node_name x = u "#text" -> s = (match data (cell_at h x) with DStr s => strip s | _ => [] end) ->
      texts x (match s with [] => [] | _ => [s] end)
  | texts_node : forall x ls, node_name x <> u "#text" ->
      Forall2 texts (children h x ++ match content h x with Some f => [f] | None => [] end) ls -> texts x (List.concat ls).
  Definition text_of (x : nat) (s : str) : Prop := exists l, texts x l /\ s = join [32%N] l.

  Definition empty_node (x : nat) : Prop :=
    forall y, In y (children h x) -> ~ is_element y /\ (node_name y = u "#text" -> forall s, data (cell_at h y) = DStr s -> strip s = []).

  (* the pseudo-classes other than :not *)
  Definition pseudo_sat (x : nat) (n : str) (arg : option str) : Prop :=
    (n = u "first-child" /\ first_among any x) \/
    (n = u "last-child" /\ last_among any x) \/
    (n = u "only-child" /\ first_among any x /\ last_among any x) \/
    (n = u "nth-child" /\ exists a b i, parse_nth arg = Some (a, b) /\ nth_among any x i /\ an_plus_b a b i) \/
    (n = u "first-of-type" /\ first_among (same_name x) x) \/
    (n = u "last-of-type" /\ last_among (same_name x) x) \/
    (n = u "only-of-type" /\ first_among (same_name x) x /\ last_among (same_name x) x) \/
    (n = u "nth-of-type" /\ exists a b i, parse_nth arg = Some (a, b) /\ nth_among (same_name x) x i /\ an_plus_b a b i) \/
    (n = u "empty" /\ empty_node x) \/
    (n = u "root" /\ exists p, parent h x = Some p /\ (node_name p = u "#document" \/ node_name p = u "#document-fragment")) \/
    (n = u "contains" /\ exists a, arg = Some a /\ (unquote a = [] \/ exists s, text_of x s /\ substring (unquote a) s)).

  (* the combinators: [y] stands in the place left of [x] *)
  Definition related (c : comb) (y x : nat) : Prop :=
    match c with
    | Child => parent h x = Some y
    | Desc => exists p, parent h x = Some p /\ above h y p
    | Adj => exists l1 l2 l3, sibling_list x (l1 ++ y :: l2) l3 /\ no_element any l2
    | Sib => exists l1 l2, sibling_list x l1 l2 /\ In y l1
    end.

  (* an alternative, read from the left: it can end at [x] if [x] satisfies the last part and stands in the right relation to a node where the
     parts before can end.  [ok]: where the parts read so far can end. *)
  Definition ends_at (sat : compound -> nat -> Prop) : complex -> (nat -> Prop) -> nat -> Prop :=
    fix go l ok x :=
      match l with
      | [] => ok x
      | (cb, c) :: t => go t (fun x => sat c x /\ match cb with None => True | Some cb => exists y, related cb y x /\ ok y end) x
      end.
  (* matching a simple selector, recursively for :not *)
  Fixpoint sat_simple (s : simple) (x : nat) {struct s} : Prop :=
    match s with
    | SUniv => True
    | STag n => lower (node_name x) = lower n
    | SId n => exists d, attrs (cell_at h x) = Some d /\ assoc (u "id") (dict_at h d) = Some (Some n)
    | SClass n => exists v, has_attr x (u "class") v /\ word_of n v
    | SAttr n o => exists v, has_attr x n v /\ attr_sat v o
    | SPseudo n a => pseudo_sat x n a
    | SNot _ None => True
    | SNot _ (Some s) =>
      ~ (fix some (l : list (list (option comb * compound))) : Prop :=
           match l with
           | [] => False
           | c :: t => ends_at (fun c x => match c with
                                           | Compound _ ss => is_element x /\ (fix all (l : list simple) : Prop :=
                                               match l with [] => True | s :: t => sat_simple s x /\ all t end) ss
                                           end) c (fun _ => False) x \/ some t
           end) s
    end.
  (* a compound selector: an element that satisfies all its simple selectors *)
  Definition sat_compound (c : compound) (x : nat) : Prop := is_element x /\ forall s, In s (simples c) -> sat_simple s x.
  Definition sat_complex (c : complex) (x : nat) : Prop := ends_at sat_compound c (fun _ => False) x.
  Definition sat (s : selector) (x : nat) : Prop := exists c, In c s /\ sat_complex c x.
End CSS.

(* ---- classes of selectors ---- *)
(* What parsing guarantees: tag names in selectors are lower-case, id names are not empty; recursively inside :not. *)
Fixpoint tidy_simple (s : simple) : bool :=
  match s with
  | STag n => str_eqb (lower n) n
  | SId [] => false
  | SNot _ (Some l) => forallb (forallb (fun p => match snd p with Compound _ ss => forallb tidy_simple ss end)) l
  | _ => true
  end.
(* The arguments of :not are lists of compound selectors, without combinators (as in CSS level 3, but lists and nesting are allowed). *)
Fixpoint simple_nots (s : simple) : bool :=
  match s with
  | SNot _ (Some l) => forallb (fun c => match c with [(None, Compound _ ss)] => forallb simple_nots ss | _ => false end) l
  | _ => true
  end.
(* A compound that only an element can satisfy in the implementation: it names a tag, *, an id, a class, an attribute or a position among
   siblings - something other than :not(), :contains(), :empty, :root and :comment alone *)
Definition positional : list str :=
  [u "first-child"; u "last-child"; u "only-child"; u "nth-child"; u "first-of-type"; u "last-of-type"; u "only-of-type"; u "nth-of-type"].
Definition anchors (s : simple) : bool := match s with SPseudo n _ => in_strs n positional | SNot _ _ => false | _ => true end.
Definition anchored (c : compound) : bool := existsb anchors (simples c).
(* An alternative: the first part has no combinator, the others have one *)
Definition well_formed (c : complex) : bool :=
  match c with (None, _) :: t => forallb (fun p => match fst p with Some _ => true | None => false end) t | _ => false end.
Definition parts (s : selector) : list compound := List.concat (map (map snd) s).
(* distinct compound objects have distinct numbers *)
Definition labelled (s : selector) : Prop := NoDup (map cid (parts s)).
Definition parsed_ok (s : selector) : Prop := labelled s /\ forall c, In c s -> well_formed c = true /\ forall p, In p c -> forallb tidy_simple (simples (snd p)) = true.
(* all parts but the last of an alternative are anchored *)
Definition left_parts_anchored (s : selector) : Prop := forall c, In c s -> forall p, In p (removelast c) -> anchored (snd p) = true.
Definition only_simple_nots (s : selector) : Prop := forall c, In c (parts s) -> forallb simple_nots (simples c) = true.

(* ---- classes for completeness ---- *)
(* no :comment outside :not *)
Definition no_comment (s : selector) : Prop := forall c a, In c (parts s) -> ~ In (SPseudo (u "comment") a) (simples c).
(* The combinators of an alternative, from right to left. *)
Definition comb_list (o : option comb) : list comb := match o with Some k => [k] | None => [] end.
Definition combs (c : complex) : list comb := List.concat (map (fun p => comb_list (fst p)) (rev c)).
(* Taking the nearest candidate is never wrong: left of a descendant combinator only descendant combinators, left of ~ no +. *)
Definition is_desc (k : comb) : bool := match k with Desc => true | _ => false end.
Fixpoint nearest_suffices (l : list comb) : bool :=
  match l with
  | [] => true
  | Desc :: t => forallb is_desc t
  | Sib :: t => match t with Adj :: _ => false | _ => nearest_suffices t end
  | _ :: t => nearest_suffices t
  end.
Definition nearest_ok (s : selector) : Prop := forall c, In c s -> nearest_suffices (combs c) = true.
(* No element satisfies two parts joined by a descendant combinator: "div div" is excluded, "ul li" is not. *)
Definition descendants_apart (h : heap) (s : selector) : Prop :=
  forall c, In c s -> forall a p q b, c = (a ++ p :: q :: b)%list -> fst q = Some Desc -> forall x, ~ (sat_compound h (snd p) x /\ sat_compound h (snd q) x).

(* ---- document order ---- *)
(* what lies directly under a node: the content of a template, then its children *)
Definition inner (h : heap) (x : nat) : list nat :=
  ((if str_eqb (node_name h x) (u "template") then match content h x with Some f => [f] | None => [] end else []) ++ children h x)%list.
(* [x] and all nodes below it, in document order *)
Inductive doc_order (h : heap) : nat -> list nat -> Prop :=
| doc_order_node : forall x ls, Forall2 (doc_order h) (inner h x) ls -> doc_order h x (x :: List.concat ls).
(* [l] is [ds] with some entries left out *)
Inductive sublist {A : Type} : list A -> list A -> Prop :=
| sub_nil : sublist [] []
| sub_keep : forall a l m, sublist l m -> sublist (a :: l) (a :: m)
| sub_skip : forall a l m, sublist l m -> sublist l (a :: m).

(* ---- the notation An+B ---- *)
(* [digits s]: decimal digits 0-9; their value *)
Definition digits (s : str) : Prop := forallb is_digit_ascii s = true.
Definition value (s : str) : Z := fold_left (fun a c => (a * 10 + (Z.of_N c - 48))%Z) s 0%Z.
Definition signed (minus : bool) (v : Z) : Z := if minus then (- v)%Z else v.
Inductive sign : str -> bool -> Prop := sg_plus : sign (u "+") false | sg_minus : sign (u "-") true.
Inductive opt_sign : str -> bool -> Prop := os_none : opt_sign [] false | os_sign : forall s m, sign s m -> opt_sign s m.
Definition coefficient (m : bool) (d : str) : Z := signed m (match d with [] => 1%Z | _ => value d end).

(* odd, even, B, An, An+B with any number of blanks around the second sign *)
Inductive nth_notation : str -> Z -> Z -> Prop :=
| nn_odd : nth_notation (u "odd") 2 1
| nn_even : nth_notation (u "even") 2 0
| nn_b : forall s m d, opt_sign s m -> digits d -> d <> [] -> nth_notation (s ++ d)%list 0 (signed m (value d))
| nn_an : forall s m d, opt_sign s m -> digits d -> nth_notation (s ++ d ++ [110%N])%list (coefficient m d) 0
| nn_an_b : forall s1 m1 d1 n1 s2 m2 n2 d2, opt_sign s1 m1 -> digits d1 -> sign s2 m2 -> digits d2 -> d2 <> [] ->
    nth_notation (s1 ++ d1 ++ [110%N] ++ repeat 32%N n1 ++ s2 ++ repeat 32%N n2 ++ d2)%list (coefficient m1 d1) (signed m2 (value d2)).
