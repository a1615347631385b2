(* MODEL of the stack of open elements: parser/engine.py:732-1161 _CountingStack.  None stands for a Python exception (IndexError, KeyError, ValueError). *)
From Coq Require Import ZArith.
From Verif Require Import Str.
From Verif Require MiscModel.
Open Scope N_scope.

(* what the stack reads of a dom Node: its identity (nodes are compared and hashed by identity), name, namespace, attributes, and whether its
   type is Template.  Nodes on the stack are not renamed. *)
Record item := Item { i_id : N; i_name : str; i_ns : option str; i_attrs : list (str * option str); i_template : bool }.
(* engine.py:84-89 *)
Definition parser_only_ns : str := u "justhtml-parser-only".
(* namespace in {None, html} *)
Definition in_html (it : item) : bool := match i_ns it with None => true | Some s => str_eqb s (u "html") end.
Definition is_marker (it : item) : bool := match i_ns it with None => false | Some s => str_eqb s parser_only_ns end.
Definition in_ns (ns : string) (it : item) : bool := match i_ns it with None => false | Some s => str_eqb s (u ns) end.
(* core/constants.py:96-111, 471-477 *)
Definition html_integration_point_set : list (str * str) :=
  [(u "math", u "annotation-xml"); (u "svg", u "foreignObject"); (u "svg", u "desc"); (u "svg", u "title")].
Definition mathml_text_integration_point_set : list (str * str) :=
  [(u "math", u "mi"); (u "math", u "mo"); (u "math", u "mn"); (u "math", u "ms"); (u "math", u "mtext")].
Definition key_in (it : item) (l : list (str * str)) : bool :=
  existsb (fun k => match i_ns it with None => false | Some s => str_eqb s (fst k) && str_eqb (i_name it) (snd k) end) l.
(* engine.py:803-815 _is_foreign_boundary *)
Fixpoint encoding_boundary (attrs : list (str * option str)) : bool :=
  match attrs with
  | [] => false
  | (name, value) :: t =>
    if str_eqb (lower name) (u "encoding") then in_strs (lower (match value with Some v => v | None => [] end)) [u "application/xhtml+xml"; u "text/html"]
    else encoding_boundary t
  end.
Definition is_foreign_boundary (it : item) : bool :=
  if in_ns "math" it && str_eqb (i_name it) (u "annotation-xml") then encoding_boundary (i_attrs it)
  else key_in it html_integration_point_set || (in_ns "math" it && key_in it mathml_text_integration_point_set).
Definition foreign_boundary (it : item) : bool := negb (in_html it) && negb (is_marker it) && is_foreign_boundary it.

(* dict[str, list[int]] *)
Definition dict := list (str * list nat).
Fixpoint d_get (n : str) (d : dict) : option (list nat) := match d with [] => None | (k, l) :: t => if str_eqb k n then Some l else d_get n t end.
Fixpoint d_put (n : str) (l : list nat) (d : dict) : dict := match d with [] => [(n, l)] | (k, l') :: t => if str_eqb k n then (k, l) :: t else (k, l') :: d_put n l t end.
Fixpoint d_del (n : str) (d : dict) : dict := match d with [] => [] | (k, l') :: t => if str_eqb k n then t else (k, l') :: d_del n t end.
(* d.setdefault(n, []) *)
Definition d_bucket (n : str) (d : dict) : list nat := match d_get n d with Some l => l | None => [] end.
(* bucket stays in the dict; del d[n] if it is empty *)
Definition d_shrink (n : str) (l : list nat) (d : dict) : dict := match l with [] => d_del n d | _ => d_put n l d end.
(* dict[Node, int] *)
Definition nodes_ := list (N * nat).
Fixpoint n_get (i : N) (d : nodes_) : option nat := match d with [] => None | (k, p) :: t => if k =? i then Some p else n_get i t end.
Fixpoint n_put (i : N) (p : nat) (d : nodes_) : nodes_ := match d with [] => [(i, p)] | (k, p') :: t => if k =? i then (k, p) :: t else (k, p') :: n_put i p t end.
Fixpoint n_del (i : N) (d : nodes_) : nodes_ := match d with [] => [] | (k, p') :: t => if k =? i then t else (k, p') :: n_del i t end.

(* list primitives *)
Fixpoint set_nth {A} (i : nat) (x : A) (l : list A) : option (list A) :=
  match l, i with [], _ => None | _ :: t, O => Some (x :: t) | y :: t, S k => option_map (cons y) (set_nth k x t) end.
Fixpoint del_nth {A} (i : nat) (l : list A) : option (list A) :=
  match l, i with [], _ => None | _ :: t, O => Some t | y :: t, S k => option_map (cons y) (del_nth k t) end.
Definition ins_nth {A} (i : nat) (x : A) (l : list A) : list A := (firstn i l ++ x :: skipn i l)%list.
(* list.pop() *)
Definition pop_last {A} (l : list A) : option (list A) := match l with [] => None | _ => Some (removelast l) end.
(* l[-1] *)
Fixpoint top (l : list nat) : option nat := match l with [] => None | [x] => Some x | _ :: t => top t end.
(* bisect.bisect_left *)
Fixpoint bisect_l (fuel : nat) (a : list nat) (x lo hi : nat) : nat :=
  match fuel with
  | O => lo
  | S k => if (lo <? hi)%nat then
             let mid := ((lo + hi) / 2)%nat in
             if (nth mid a O <? x)%nat then bisect_l k a x (S mid) hi else bisect_l k a x lo mid
           else lo
  end.
Definition bisect_left (a : list nat) (x : nat) : nat := bisect_l (S (List.length a)) a x O (List.length a).
(* bisect.insort *)
Definition insort (a : list nat) (x : nat) : list nat := ins_nth (MiscModel.bisect_right a x) x a.

Record index := Index { x_html : dict; x_other : dict; x_nodes : nodes_; x_rendered : list nat; x_foreign : list nat }.
Record stack := Stack { items : list item; p_count : Z; ix : option index (* None: _indexed is False *) }.

(* positions = self._html_positions if ... else self._other_positions; f changes that dict *)
Definition on_names (it : item) (f : dict -> option dict) (x : index) : option index :=
  if in_html it then option_map (fun d => Index d (x_other x) (x_nodes x) (x_rendered x) (x_foreign x)) (f (x_html x))
  else option_map (fun d => Index (x_html x) d (x_nodes x) (x_rendered x) (x_foreign x)) (f (x_other x)).
Definition on_nodes (f : nodes_ -> nodes_) (x : index) : index := Index (x_html x) (x_other x) (f (x_nodes x)) (x_rendered x) (x_foreign x).
Definition on_rendered (f : list nat -> option (list nat)) (x : index) : option index :=
  option_map (fun l => Index (x_html x) (x_other x) (x_nodes x) l (x_foreign x)) (f (x_rendered x)).
Definition on_foreign (f : list nat -> option (list nat)) (x : index) : option index :=
  option_map (fun l => Index (x_html x) (x_other x) (x_nodes x) (x_rendered x) l) (f (x_foreign x)).
Definition bind {A B} (x : option A) (f : A -> option B) : option B := match x with Some a => f a | None => None end.

(* engine.py:974-981 _note_top_position; 781-792 the loop body of _build_position_index does the same *)
Definition note_top (it : item) (i : nat) (x : index) : option index :=
  bind (on_names it (fun d => Some (d_put (i_name it) (d_bucket (i_name it) d ++ [i])%list d)) x) (fun x =>
  let x := on_nodes (n_put (i_id it) i) x in
  bind (if negb (is_marker it) then on_rendered (fun l => Some (l ++ [i])%list) x else Some x) (fun x =>
  if foreign_boundary it then on_foreign (fun l => Some (l ++ [i])%list) x else Some x)).
(* engine.py:983-993 _forget_top_position *)
Definition forget_top (it : item) (i : nat) (x : index) : option index :=
  bind (on_names it (fun d => bind (d_get (i_name it) d) (fun b => option_map (fun b => d_shrink (i_name it) b d) (pop_last b))) x) (fun x =>
  let x := on_nodes (n_del (i_id it)) x in
  bind (if negb (is_marker it) then on_rendered pop_last x else Some x) (fun x =>
  match top (x_foreign x) with Some j => if (j =? i)%nat then on_foreign pop_last x else Some x | None => Some x end)).
(* engine.py:995-1008 _note_position_at *)
Definition note_at (it : item) (i : nat) (x : index) : option index :=
  bind (on_names it (fun d => Some (d_put (i_name it) (insort (d_bucket (i_name it) d) i) d)) x) (fun x =>
  let x := on_nodes (n_put (i_id it) i) x in
  bind (if negb (is_marker it) then on_rendered (fun l => Some (insort l i)) x else Some x) (fun x =>
  if foreign_boundary it then on_foreign (fun l => Some (insort l i)) x else Some x)).
(* engine.py:1010-1020 _discard_position *)
Definition discard (it : item) (i : nat) (x : index) : option index :=
  bind (on_names it (fun d => bind (d_get (i_name it) d) (fun b => option_map (fun b => d_shrink (i_name it) b d) (del_nth (bisect_left b i) b))) x) (fun x =>
  let x := on_nodes (n_del (i_id it)) x in
  bind (if negb (is_marker it) then on_rendered (fun l => del_nth (bisect_left l i) l) x else Some x) (fun x =>
  if foreign_boundary it then on_foreign (fun l => del_nth (bisect_left l i) l) x else Some x)).
(* engine.py:1035-1056 _renumber_from: the loop body, and the loop *)
Definition renumber_one (it : item) (old new : nat) (x : index) : option index :=
  bind (on_names it (fun d => bind (d_get (i_name it) d) (fun b => option_map (fun b => d_put (i_name it) b d) (set_nth (bisect_left b old) new b))) x) (fun x =>
  let x := on_nodes (n_put (i_id it) new) x in
  bind (if negb (is_marker it) then on_rendered (fun l => set_nth (bisect_left l old) new l) x else Some x) (fun x =>
  if foreign_boundary it then on_foreign (fun l => set_nth (bisect_left l old) new l) x else Some x)).
Fixpoint renumber_loop (l : list item) (up : bool) (span : list nat) (x : index) : option index :=
  match span with
  | [] => Some x
  | p :: t => bind (nth_error l p) (fun it => bind (renumber_one it (if up then p - 1 else p + 1)%nat p x) (renumber_loop l up t))
  end.
Definition renumber_from (l : list item) (first_moved : nat) (up : bool) (x : index) : option index :=
  let span := seq first_moved (List.length l - first_moved) in
  renumber_loop l up (if up then rev span else span) x.
(* engine.py:775-801 _build_position_index *)
Fixpoint build_loop (l : list item) (i : nat) (x : index) : option index :=
  match l with [] => Some x | it :: t => bind (note_top it i x) (build_loop t (S i)) end.
Definition build (l : list item) : option index := build_loop l O (Index [] [] [] [] []).

Definition threshold : nat := 32.
Definition is_p (it : item) : bool := str_eqb (i_name it) (u "p").
Definition one_if (b : bool) : Z := if b then 1%Z else 0%Z.
Definition count_p (l : list item) : Z := fold_left (fun n it => (n + one_if (is_p it))%Z) l 0%Z.
(* engine.py:760-773 __init__ *)
Definition new_stack (l : list item) : option stack :=
  if (List.length l <? threshold)%nat then Some (Stack l (count_p l) None)
  else option_map (fun x => Stack l (count_p l) (Some x)) (build l).
(* if self._indexed: ... *)
Definition with_index (s : option index) (f : index -> option index) : option (option index) := match s with None => Some None | Some x => option_map Some (f x) end.
(* engine.py:1078-1086 append *)
Definition append_ (it : item) (s : stack) : option stack :=
  let i := List.length (items s) in
  let l := (items s ++ [it])%list in
  let p := (p_count s + one_if (is_p it))%Z in
  match ix s with
  | Some x => option_map (fun x => Stack l p (Some x)) (note_top it i x)
  | None => if (threshold <=? List.length l)%nat then option_map (fun x => Stack l p (Some x)) (build l) else Some (Stack l p None)
  end.
(* engine.py:1088-1107 insert *)
Definition insert_ (z : Z) (it : item) (s : stack) : option stack :=
  let len := Z.of_nat (List.length (items s)) in
  let n := Z.to_nat (Z.max 0 (Z.min (if (0 <=? z)%Z then z else len + z) len)) in
  let l := ins_nth n it (items s) in
  let p := (p_count s + one_if (is_p it))%Z in
  match ix s with
  | None => if (threshold <=? List.length l)%nat then option_map (fun x => Stack l p (Some x)) (build l) else Some (Stack l p None)
  | Some x => option_map (fun x => Stack l p (Some x))
      (if (n =? List.length (items s))%nat then note_top it n x
       else bind (renumber_from l (n + 1) true x) (note_at it n))
  end.
(* the position z means in a list of that length, if there is one *)
Definition at_index (z : Z) (len : nat) : option nat :=
  let k := if (0 <=? z)%Z then z else (Z.of_nat len + z)%Z in
  if ((0 <=? k) && (k <? Z.of_nat len))%Z then Some (Z.to_nat k) else None.
(* engine.py:1109-1127 __setitem__.  An index below -len raises too, a little later *)
Definition set_item (z : Z) (it : item) (s : stack) : option stack :=
  bind (at_index z (List.length (items s))) (fun k =>
  bind (nth_error (items s) k) (fun previous =>
  bind (set_nth k it (items s)) (fun l =>
  let p := if str_eqb (i_name previous) (i_name it) then p_count s else (p_count s - one_if (is_p previous) + one_if (is_p it))%Z in
  option_map (Stack l p) (with_index (ix s) (fun x => bind (discard previous k x) (note_at it k)))))).
(* the second half of pop, remove and del: engine.py:1135-1141, 1151-1156, 1177-1183; l is the list without the element *)
Definition removed (l : list item) (it : item) (k : nat) (x : index) : option index :=
  if (k =? List.length l)%nat then forget_top it k x else bind (discard it k x) (renumber_from l k false).
(* engine.py:1129-1141 pop, 1170-1183 __delitem__ of an index *)
Definition remove_at (z : Z) (s : stack) : option stack :=
  bind (at_index z (List.length (items s))) (fun k =>
  bind (nth_error (items s) k) (fun it =>
  bind (del_nth k (items s)) (fun l => option_map (Stack l (p_count s - one_if (is_p it))%Z) (with_index (ix s) (removed l it k))))).
(* engine.py:1022-1028 index_of_node *)
Fixpoint list_index (it : item) (l : list item) : option nat :=
  match l with [] => None | y :: t => if i_id y =? i_id it then Some O else option_map S (list_index it t) end.
Definition index_of_node (it : item) (s : stack) : option nat := match ix s with None => list_index it (items s) | Some x => n_get (i_id it) (x_nodes x) end.
(* engine.py:1030-1033 __contains__ *)
Definition contains_node (it : item) (s : stack) : bool :=
  match ix s with
  | None => existsb (fun y => i_id y =? i_id it) (items s)
  | Some x => match n_get (i_id it) (x_nodes x) with Some _ => true | None => false end
  end.
(* engine.py:1143-1156 remove *)
Definition remove_ (it : item) (s : stack) : option stack :=
  bind (index_of_node it s) (fun k =>
  bind (del_nth k (items s)) (fun l => option_map (Stack l (p_count s - one_if (is_p it))%Z) (with_index (ix s) (removed l it k)))).
(* engine.py:1158-1185 __delitem__ of a slice with a positive step *)
Definition clamp (z : Z) (len : nat) : nat := Z.to_nat (Z.max 0 (Z.min (if (0 <=? z)%Z then z else (Z.of_nat len + z)%Z) (Z.of_nat len))).
Fixpoint split_slice {A} (start stop step i : nat) (l : list A) : list A * list A (* deleted, left *) :=
  match l with
  | [] => ([], [])
  | y :: t => let '(d, k) := split_slice start stop step (S i) t in
              if (start <=? i)%nat && (i <? stop)%nat && ((i - start) mod step =? 0)%nat then (y :: d, k) else (d, y :: k)
  end.
Fixpoint pop_to (fuel start : nat) (s : stack) : option stack :=
  match fuel with
  | O => None
  | S k => if (start <? List.length (items s))%nat then bind (remove_at (-1) s) (pop_to k start) else Some s
  end.
Definition del_slice (start stop : option Z) (step : nat) (s : stack) : option stack :=
  let len := List.length (items s) in
  let a := match start with Some z => clamp z len | None => O end in
  let b := match stop with Some z => clamp z len | None => len end in
  match ix s with
  | Some _ =>
    if (step =? 1)%nat && (len <=? b)%nat then pop_to (S len) a s else
    let '(d, l) := split_slice a b step O (items s) in
    option_map (fun x => Stack l (p_count s - count_p d)%Z (Some x)) (build l)
  | None => let '(d, l) := split_slice a b step O (items s) in Some (Stack l (p_count s - count_p d)%Z None)
  end.

Inductive op := Append (it : item) | Insert (z : Z) (it : item) | SetItem (z : Z) (it : item) | Pop (z : Z) | Remove (it : item) | DelItem (z : Z)
              | DelSlice (start stop : option Z) (step : nat).
Definition apply_op (o : op) (s : stack) : option stack :=
  match o with
  | Append it => append_ it s
  | Insert z it => insert_ z it s
  | SetItem z it => set_item z it s
  | Pop z => remove_at z s
  | Remove it => remove_ it s
  | DelItem z => remove_at z s
  | DelSlice a b n => del_slice a b n s
  end.

(* ---------- lookups ---------- *)
(* for index in range(len(self) - 1, 0, -1): if f(self[index]): return index *)
Fixpoint scan_down (f : item -> bool) (l : list item) (i : nat) : option nat :=
  match i with O => None | S k => match nth_error l i with Some it => if f it then Some i else scan_down f l k | None => scan_down f l k end end.
Definition scan (f : item -> bool) (s : stack) : option nat := scan_down f (items s) (List.length (items s) - 1).
Definition or_minus_one (x : option nat) : Z := match x with Some i => Z.of_nat i | None => (-1)%Z end.
(* positions[-1] if positions else 0 *)
Definition top_or_0 (x : option (list nat)) : nat := match x with Some l => match top l with Some i => i | None => O end | None => O end.
(* index or None *)
Definition or_none (i : nat) : option nat := match i with O => None | _ => Some i end.
(* engine.py:817-826 *)
Definition last_index_of (name : str) (s : stack) : option nat :=
  match ix s with
  | None => scan (fun it => str_eqb (i_name it) name) s
  | Some x => or_none (Nat.max (top_or_0 (d_get name (x_html x))) (top_or_0 (d_get name (x_other x))))
  end.
(* the last of these positions whose node satisfies f *)
Fixpoint last_where (f : item -> bool) (l : list item) (rev_positions : list nat) : option nat :=
  match rev_positions with
  | [] => None
  | i :: t => match nth_error l i with Some it => if f it then Some i else last_where f l t | None => last_where f l t end
  end.
(* engine.py:828-847 *)
Definition last_html_index_of (name : str) (parser_only : bool) (s : stack) : option nat :=
  match ix s with
  | None => scan (fun it => str_eqb (i_name it) name && (in_html it || (parser_only && is_marker it))) s
  | Some x =>
    let best := top_or_0 (d_get name (x_html x)) in
    or_none (if parser_only then
               match d_get name (x_other x) with
               | Some other => match last_where is_marker (items s) (rev other) with Some i => Nat.max best i | None => best end
               | None => best
               end
             else best)
  end.
(* engine.py:849-870; None: positions[-1] of an empty list *)
Fixpoint best_of_items (names : list str) (d : dict) (best : Z) : option Z :=
  match d with
  | [] => Some best
  | (name, positions) :: t => match top positions with
                              | None => None
                              | Some i => best_of_items names t (if (best <? Z.of_nat i)%Z && in_strs name names then Z.of_nat i else best)
                              end
  end.
Fixpoint best_of_names (names : list str) (d : dict) (best : Z) : Z :=
  match names with
  | [] => best
  | name :: t => best_of_names t d (match d_get name d with
                                    | Some l => match top l with Some i => if (best <? Z.of_nat i)%Z then Z.of_nat i else best | None => best end
                                    | None => best
                                    end)
  end.
Definition last_html_index_of_any (names : list str) (s : stack) : option Z :=
  match ix s with
  | None => Some (or_minus_one (scan (fun it => in_html it && in_strs (i_name it) names) s))
  | Some x => if (List.length (x_html x) <? List.length names)%nat then best_of_items names (x_html x) (-1) else Some (best_of_names names (x_html x) (-1))
  end.
(* engine.py:872-881; None: positions[-1] of an empty list *)
Fixpoint max_top (d : dict) (best : Z) : option Z :=
  match d with [] => Some best | (_, l) :: t => match top l with Some i => max_top t (Z.max best (Z.of_nat i)) | None => None end end.
Definition last_html_index (s : stack) : option Z :=
  match ix s with
  | None => Some (or_minus_one (scan in_html s))
  | Some x => option_map (fun i => if (0 <? i)%Z then i else (-1)%Z) (max_top (x_html x) (-1))
  end.
(* engine.py:883-895 *)
Fixpoint max_of_names (names : list str) (d : dict) (best : Z) : Z :=
  match names with
  | [] => best
  | name :: t => max_of_names t d (match d_get name d with Some l => match top l with Some i => Z.max best (Z.of_nat i) | None => best end | None => best end)
  end.
Definition last_index_of_any (names : list str) (s : stack) : option nat :=
  match ix s with
  | None => scan (fun it => in_strs (i_name it) names) s
  | Some x => let best := max_of_names names (x_other x) (max_of_names names (x_html x) (-1)) in if (0 <? best)%Z then Some (Z.to_nat best) else None
  end.
(* engine.py:897-904 *)
Definition last_foreign_boundary_index (s : stack) : Z :=
  match ix s with None => or_minus_one (scan foreign_boundary s) | Some x => or_minus_one (top (x_foreign x)) end.
(* engine.py:906-925 *)
Definition last_scope_boundary_index (names : list str) (s : stack) : option Z :=
  match ix s with
  | None => Some (or_minus_one (scan (fun it => if in_html it then in_strs (i_name it) names else negb (is_marker it) && is_foreign_boundary it) s))
  | Some x => option_map (fun a => Z.max a (last_foreign_boundary_index s)) (last_html_index_of_any names s)
  end.
(* engine.py:927-935 *)
Definition last_rendered_index (s : stack) : option nat :=
  match ix s with None => scan (fun it => negb (is_marker it)) s | Some x => or_none (match top (x_rendered x) with Some i => i | None => O end) end.
(* engine.py:937-962 *)
Definition last_template_boundary_index (s : stack) : Z :=
  match ix s with
  | None => or_minus_one (scan (fun it => str_eqb (i_name it) (u "template") && (is_marker it || (i_template it && in_html it))) s)
  | Some x =>
    let best := match d_get (u "template") (x_html x) with Some l => or_minus_one (last_where i_template (items s) (rev l)) | None => (-1)%Z end in
    match d_get (u "template") (x_other x) with
    | Some l => match last_where is_marker (items s) (rev l) with Some i => Z.max best (Z.of_nat i) | None => best end
    | None => best
    end
  end.
(* engine.py:1058-1076 count_of *)
Definition count_of (name : str) (s : stack) : Z :=
  if str_eqb name (u "p") then p_count s else
  match ix s with
  | None => fold_left (fun n it => (n + one_if (str_eqb (i_name it) name))%Z) (items s) 0%Z
  | Some x => (Z.of_nat (List.length (d_bucket name (x_html x))) + Z.of_nat (List.length (d_bucket name (x_other x))))%Z
  end.
