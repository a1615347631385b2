(* MODEL of the list of active formatting elements: parser/engine.py:685-727 and 5218-5240, 5535-5715, 5886-5901.
   None as a result stands for a Python exception (KeyError, ValueError, IndexError).  The element nodes, and the reconstruction of the
   elements (which only changes entry.node), are not part of this model. *)
From Coq Require Import ZArith.
From Verif Require Import Str.
From Verif Require StackModel.
Open Scope N_scope.

Definition attrs := list (str * option str).
(* engine.py:685-694 the signature state.  The signature itself is () or a frozenset of the attributes: compared as sets of pairs (same_attrs) *)
Inductive sig_state := SNone | SDeferred (a : attrs) | SSig (a : attrs).
(* engine.py:697-704 _FormattingEntry: e_id is the object identity, e_attrs is node.attrs, e_seg the segment object *)
Record entry := Entry { e_id : N; e_name : str; e_attrs : attrs; e_sig : sig_state; e_seg : N; e_live : bool }.
(* None: the marker *)
Definition slot := option entry.
(* engine.py:707-719 _FormattingSegment: g_keys is the dict itself *)
Definition key := (str * attrs)%type.
Definition keys := list (key * list entry).
Record segment := Segment { g_id : N; g_pending : option entry; g_names : list (str * Z); g_keys : keys }.
(* e_next, s_next: the identities of the next objects *)
Record fmt := Fmt { active : list slot; segs : list segment; retired : Z; e_next : N; s_next : N }.
Definition empty : fmt := Fmt [] [] 0%Z 0 0.

Definition opt_eqb (a b : option str) : bool := match a, b with None, None => true | Some x, Some y => str_eqb x y | _, _ => false end.
Definition has_pair (p : str * option str) (a : attrs) : bool := existsb (fun q => str_eqb (fst p) (fst q) && opt_eqb (snd p) (snd q)) a.
Definition same_attrs (a b : attrs) : bool := forallb (fun p => has_pair p b) a && forallb (fun p => has_pair p a) b.
Definition key_eqb (k1 k2 : key) : bool := str_eqb (fst k1) (fst k2) && same_attrs (snd k1) (snd k2).
(* dict operations *)
Fixpoint k_get (k : key) (d : keys) : option (list entry) := match d with [] => None | (k', b) :: t => if key_eqb k' k then Some b else k_get k t end.
Fixpoint k_put (k : key) (b : list entry) (d : keys) : keys := match d with [] => [(k, b)] | (k', b') :: t => if key_eqb k' k then (k', b) :: t else (k', b') :: k_put k b t end.
Fixpoint k_del (k : key) (d : keys) : keys := match d with [] => [] | (k', b') :: t => if key_eqb k' k then t else (k', b') :: k_del k t end.
Fixpoint z_get (n : str) (d : list (str * Z)) : option Z := match d with [] => None | (k, z) :: t => if str_eqb k n then Some z else z_get n t end.
Fixpoint z_put (n : str) (z : Z) (d : list (str * Z)) : list (str * Z) := match d with [] => [(n, z)] | (k, z') :: t => if str_eqb k n then (k, z) :: t else (k, z') :: z_put n z t end.
Fixpoint z_del (n : str) (d : list (str * Z)) : list (str * Z) := match d with [] => [] | (k, z') :: t => if str_eqb k n then t else (k, z') :: z_del n t end.
Definition z_default (n : str) (d : list (str * Z)) : Z := match z_get n d with Some z => z | None => 0%Z end.
(* list.remove, by identity *)
Fixpoint remove_entry (e : entry) (l : list entry) : option (list entry) :=
  match l with [] => None | x :: t => if e_id x =? e_id e then Some t else option_map (cons x) (remove_entry e t) end.

(* engine.py:5602-5611 _formatting_entry_signature.  The result is cached in the entry; the attributes do not change afterwards, so the
   cache is not modelled *)
Definition signature (e : entry) : attrs := match e_sig e with SDeferred a => a | SNone => e_attrs e | SSig s => s end.
Definition ekey (e : entry) : key := (e_name e, signature e).
(* engine.py:5620-5627 _index_active_formatting_entry *)
Definition index_entry (e : entry) (g : segment) : segment :=
  Segment (g_id g) (g_pending g) (g_names g) (k_put (ekey e) ((match k_get (ekey e) (g_keys g) with Some b => b | None => [] end) ++ [e])%list (g_keys g)).
(* engine.py:5613-5618 _materialize_pending_active_formatting_entry, 5568-5571 *)
Definition materialize (g : segment) : segment :=
  match g_pending g with None => g | Some p => index_entry p (Segment (g_id g) None (g_names g) (g_keys g)) end.
(* live[name] = live.get(name, 0) + 1 *)
Definition count_name (n : str) (g : segment) : segment := Segment (g_id g) (g_pending g) (z_put n (z_default n (g_names g) + 1)%Z (g_names g)) (g_keys g).
(* the segments list: its last element, and changing one of them *)
Fixpoint last_seg (l : list segment) : option segment := match l with [] => None | [g] => Some g | _ :: t => last_seg t end.
Fixpoint on_seg (id : N) (f : segment -> option segment) (l : list segment) : option (list segment) :=
  match l with [] => None | g :: t => if g_id g =? id then option_map (fun g => g :: t) (f g) else option_map (cons g) (on_seg id f t) end.
Definition set_last (g : segment) (l : list segment) : list segment := (removelast l ++ [g])%list.

(* engine.py:5657-5682 _retire_active_formatting_entry: the part on the segment *)
Definition seg_retire (e : entry) (g : segment) : option segment :=
  let remaining := (z_default (e_name e) (g_names g) - 1)%Z in
  let names := if (0 <? remaining)%Z then z_put (e_name e) remaining (g_names g) else z_del (e_name e) (g_names g) in
  if match g_pending g with Some p => e_id p =? e_id e | None => false end then Some (Segment (g_id g) None names (g_keys g))
  else match k_get (ekey e) (g_keys g) with
       | None => None
       | Some matches =>
         match remove_entry e matches with
         | None => None
         | Some [] => Some (Segment (g_id g) (g_pending g) names (k_del (ekey e) (g_keys g)))
         | Some rest => Some (Segment (g_id g) (g_pending g) names (k_put (ekey e) rest (g_keys g)))
         end
       end.
Definition kill (id : N) (s : slot) : slot :=
  match s with None => None | Some e => if e_id e =? id then Some (Entry (e_id e) (e_name e) (e_attrs e) (e_sig e) (e_seg e) false) else Some e end.
Fixpoint last_is (id : N) (l : list slot) : bool := match l with [] => false | [Some e] => e_id e =? id | [None] => false | _ :: t => last_is id t end.
Definition retire (e : entry) (f : fmt) : option fmt :=
  match on_seg (e_seg e) (seg_retire e) (segs f) with
  | None => None
  | Some sg =>
    if last_is (e_id e) (active f) then Some (Fmt (removelast (active f)) sg (retired f) (e_next f) (s_next f))
    else Some (Fmt (map (kill (e_id e)) (active f)) sg (retired f + 1)%Z (e_next f) (s_next f))
  end.
(* engine.py:5684-5689 _compact_active_formatting_if_needed *)
Definition stays (s : slot) : bool := match s with None => true | Some e => e_live e end.
Definition compact (f : fmt) : fmt :=
  if (retired f * 2 <? Z.of_nat (List.length (active f)))%Z then f
  else Fmt (filter stays (active f)) (segs f) 0%Z (e_next f) (s_next f).
(* engine.py:5545-5552 the start of _parse_formatting_start.  What follows it for a and nobr (5553-5566) are separate operations here *)
Definition prepare (f : fmt) : fmt :=
  let f := if (64 <=? retired f)%Z then compact f else f in
  match segs f with
  | [] => Fmt (active f) [Segment (s_next f) None [] []] (retired f) (e_next f) (s_next f + 1)
  | _ => f
  end.
(* engine.py:5649-5655 _find_active_formatting_duplicate *)
Definition duplicate (n : str) (a : attrs) (g : segment) : option entry :=
  match k_get (n, a) (g_keys g) with Some ((m :: _ :: _ :: []) as _) => Some m | _ => None end.
(* engine.py:5567-5600 the rest of it.  stored: node.attrs, if that is not the dict attrs itself *)
Definition push (n : str) (a : attrs) (stored : option attrs) (compiled : bool) (f : fmt) : option fmt :=
  match last_seg (segs f) with
  | None => None
  | Some g =>
    let g := materialize g in
    let f := Fmt (active f) (set_last g (segs f)) (retired f) (e_next f) (s_next f) in
    let indexed := match g_keys g with [] => false | _ => true end in
    match (if indexed then match duplicate n a g with Some d => retire d f | None => Some f end else Some f) with
    | None => None
    | Some f =>
      match last_seg (segs f) with
      | None => None
      | Some g =>
        let sig := if indexed then SSig a else match stored with Some _ => if compiled then SNone else SDeferred a | None => SNone end in
        let e := Entry (e_next f) n (match stored with Some s => if compiled then a else s | None => a end) sig (g_id g) true in
        let g := count_name n g in
        let g := match g_pending g, g_keys g with None, [] => Segment (g_id g) (Some e) (g_names g) (g_keys g) | _, _ => index_entry e g end in
        Some (Fmt (active f ++ [Some e])%list (set_last g (segs f)) (retired f) (e_next f + 1) (s_next f))
      end
    end
  end.
(* engine.py:3460-3474 the fast path for a compiled-safe start tag; otherwise the general one *)
Definition push_fast (n : str) (a : attrs) (f : fmt) : option fmt :=
  match last_seg (segs f) with
  | Some g =>
    if (retired f <? 64)%Z && match g_pending g, g_keys g with None, [] => true | _, _ => false end && negb (str_eqb n (u "nobr")) then
      let e := Entry (e_next f) n a SNone (g_id g) true in
      let g := count_name n g in
      Some (Fmt (active f ++ [Some e])%list (set_last (Segment (g_id g) (Some e) (g_names g) (g_keys g)) (segs f)) (retired f) (e_next f + 1) (s_next f))
    else push n a None true (prepare f)
  | None => push n a None true (prepare f)
  end.
(* engine.py:5218-5220 *)
Definition push_marker (f : fmt) : fmt :=
  Fmt (active f ++ [None])%list (segs f ++ [Segment (s_next f) None [] []])%list (retired f) (e_next f) (s_next f + 1).
(* engine.py:5222-5236 _clear_active_formatting_to_marker; the list is given back to front *)
Fixpoint clear_loop (back : list slot) (dead : Z) : list slot * Z * bool (* a marker was met *) :=
  match back with
  | [] => ([], dead, false)
  | None :: t => (rev t, dead, true)
  | Some e :: t => clear_loop t (if e_live e then dead else dead - 1)%Z
  end.
Definition clear (f : fmt) : option fmt :=
  let '(act, dead, met) := clear_loop (rev (active f)) (retired f) in
  if met then match segs f with [] => None | _ => Some (Fmt act (removelast (segs f)) dead (e_next f) (s_next f)) end
  else Some (Fmt act (match last_seg (segs f) with None => segs f | Some g => set_last (Segment (g_id g) None [] []) (segs f) end) dead (e_next f) (s_next f)).
(* the entry with that identity *)
Fixpoint lookup (id : N) (l : list slot) : option entry :=
  match l with [] => None | Some e :: t => if e_id e =? id then Some e else lookup id t | None :: t => lookup id t end.
(* engine.py:5629-5640 _find_active_formatting_index; the list back to front, idx is the index of its head *)
Fixpoint find_back (n : str) (back : list slot) : option nat :=
  match back with
  | [] => None
  | None :: _ => None
  | Some e :: t => if e_live e && str_eqb (e_name e) n then Some (List.length t) else find_back n t
  end.
Definition find_index (n : str) (f : fmt) : option nat :=
  match last_seg (segs f) with
  | Some g => match z_get n (g_names g) with None => None | Some _ => find_back n (rev (active f)) end
  | None => find_back n (rev (active f))
  end.
(* engine.py:5691-5699 _remove_last_active_formatting_by_name *)
Definition remove_last_named (n : str) (f : fmt) : option fmt :=
  match find_back n (rev (active f)) with
  | None => Some f
  | Some i => match nth_error (active f) i with Some (Some e) => retire e f | _ => None end
  end.
(* engine.py:5886-5901 the adoption agency puts a clone of the formatting element into the list: position is the bookmark, already
   decremented and clamped *)
Definition replace_ (e : entry) (position : nat) (f : fmt) : option fmt :=
  match retire e f with
  | None => None
  | Some f =>
    match last_seg (segs f) with
    | None => None
    | Some g =>
      let r := Entry (e_next f) (e_name e) (e_attrs e) (SSig (signature e)) (g_id g) true in
      let g := index_entry r (materialize (count_name (e_name e) g)) in
      Some (Fmt (StackModel.ins_nth position (Some r) (active f)) (set_last g (segs f)) (retired f) (e_next f + 1) (s_next f))
    end
  end.

Inductive op := Prepare | Push (n : str) (a : attrs) (stored : option attrs) (compiled : bool) | PushFast (n : str) (a : attrs) | Marker | Clear
              | Retire (id : N) | RemoveLast (n : str) | Replace (id : N) (position : nat) | Compact.
Definition apply_op (o : op) (f : fmt) : option fmt :=
  match o with
  | Prepare => Some (prepare f)
  | Push n a stored compiled => push n a stored compiled f
  | PushFast n a => push_fast n a f
  | Marker => Some (push_marker f)
  | Clear => clear f
  | Retire id => match lookup id (active f) with Some e => retire e f | None => None end
  | RemoveLast n => remove_last_named n f
  | Replace id position => match lookup id (active f) with Some e => replace_ e position f | None => None end
  | Compact => Some (compact f)
  end.
