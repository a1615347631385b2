(* Python str as a list of code points, and the str primitives used by the modelled code.
   Python semantics: CPython 3.11 `str` methods.  No proofs in this file. *)
From Coq Require Export PeanoNat NArith List Bool Ascii String.
From Verif Require Export UnicodeTables.
Export ListNotations.
Open Scope N_scope.

Definition str := list N.

(* ASCII literals: [u "..."] is the Python literal of the same (ASCII) characters. *)
Definition u (s : string) : str := map N_of_ascii (list_ascii_of_string s).

Notation c_nul := 0%N.  Notation c_tab := 9%N.  Notation c_lf := 10%N.  Notation c_ff := 12%N.
Notation c_cr := 13%N.  Notation c_sp := 32%N.  Notation c_bang := 33%N. Notation c_dq := 34%N.
Notation c_hash := 35%N. Notation c_amp := 38%N. Notation c_sq := 39%N. Notation c_dash := 45%N.
Notation c_slash := 47%N. Notation c_colon := 58%N. Notation c_semi := 59%N. Notation c_lt := 60%N.
Notation c_eq := 61%N. Notation c_gt := 62%N. Notation c_qm := 63%N. Notation c_bs := 92%N.

(* c in s *)
Definition mem (c : N) (s : str) : bool := existsb (N.eqb c) s.

Definition str_eqb : str -> str -> bool :=
  fix go a b := match a, b with
  | [], [] => true
  | x :: a', y :: b' => (x =? y) && go a' b'
  | _, _ => false end.

(* name in frozenset / tuple of strings *)
Definition in_strs (s : str) (l : list str) : bool := existsb (str_eqb s) l.

(* s.startswith(p) *)
Fixpoint starts (p s : str) : bool :=
  match p, s with
  | [], _ => true
  | x :: p', y :: s' => (x =? y) && starts p' s'
  | _ :: _, [] => false
  end.

(* s.endswith(p) *)
Definition ends (p s : str) : bool := starts (rev p) (rev s).

(* s.find(needle): index of the first occurrence *)
Fixpoint find (needle s : str) : option nat :=
  if starts needle s then Some O else
  match s with
  | [] => None
  | _ :: t => option_map S (find needle t)
  end.

(* needle in s *)
Definition contains (needle s : str) : bool :=
  match find needle s with Some _ => true | None => false end.

(* s.find(c) for one character *)
Fixpoint find_char (c : N) (s : str) : option nat :=
  match s with
  | [] => None
  | x :: t => if x =? c then Some O else option_map S (find_char c t)
  end.

(* s.replace(old, new), old nonempty: leftmost, non-overlapping *)
Fixpoint replace_go (old new : str) (skip : nat) (s : str) : str :=
  match s with
  | [] => []
  | c :: t =>
    match skip with
    | S k => replace_go old new k t
    | O => if starts old s then (new ++ replace_go old new (List.length old - 1) t)%list
           else c :: replace_go old new O t
    end
  end.
Definition replace (old new s : str) : str := replace_go old new O s.

(* s.replace(c, new) for one character c *)
Definition replace_char (c : N) (new : str) (s : str) : str :=
  flat_map (fun x => if x =? c then new else [x]) s.

(* s.split(c) for one character c *)
Fixpoint split_char (c : N) (s : str) : list str :=
  match s with
  | [] => [[]]
  | x :: t =>
    if x =? c then [] :: split_char c t
    else match split_char c t with
         | w :: ws => (x :: w) :: ws
         | [] => [[x]]
         end
  end.

Definition in_ranges (l : list (N * N)) (c : N) : bool :=
  existsb (fun p => (fst p <=? c) && (c <=? snd p)) l.

(* str.isspace / isdecimal / isdigit / isalpha of one character *)
Definition is_space (c : N) : bool := in_ranges space_ranges c.
Definition is_decimal (c : N) : bool := in_ranges decimal_ranges c.
Definition is_digit (c : N) : bool := is_decimal c || in_ranges digit_nondecimal_ranges c.
Definition is_alpha (c : N) : bool := in_ranges alpha_ranges c.

(* chr(c).isalnum() *)
Definition is_alnum (c : N) : bool := is_alpha c || is_digit c || in_ranges numeric_only_ranges c.

Definition is_ascii_char (c : N) : bool := c <? 128.
(* s.isascii() *)
Definition is_ascii (s : str) : bool := forallb is_ascii_char s.
(* s.isdecimal(), s.isdigit(): nonempty and all *)
Definition str_isdecimal (s : str) : bool :=
  match s with [] => false | _ => forallb is_decimal s end.
Definition str_isdigit (s : str) : bool :=
  match s with [] => false | _ => forallb is_digit s end.

Definition drop_while (p : N -> bool) : str -> str :=
  fix go s := match s with [] => [] | c :: t => if p c then go t else s end.
Definition take_while (p : N -> bool) : str -> str :=
  fix go s := match s with [] => [] | c :: t => if p c then c :: go t else [] end.

Definition lstrip_by (p : N -> bool) (s : str) : str := drop_while p s.
Definition rstrip_by (p : N -> bool) (s : str) : str := rev (drop_while p (rev s)).
Definition strip_by (p : N -> bool) (s : str) : str := rstrip_by p (lstrip_by p s).
(* s.strip() and s.strip(chars) *)
Definition strip (s : str) : str := strip_by is_space s.
Definition strip_chars (cs : str) (s : str) : str := strip_by (fun c => mem c cs) s.

(* s.split(): maximal runs of non-whitespace, for an arbitrary whitespace predicate.
   [acc] is the current word, reversed. *)
Fixpoint split_by_go (p : N -> bool) (acc : str) (s : str) : list str :=
  match s with
  | [] => match acc with [] => [] | _ => [rev acc] end
  | c :: t => if p c then match acc with [] => split_by_go p [] t | _ => rev acc :: split_by_go p [] t end
              else split_by_go p (c :: acc) t
  end.
Definition split_ws (s : str) : list str := split_by_go is_space [] s.

(* sep.join(l) *)
Fixpoint join (sep : str) (l : list str) : str :=
  match l with
  | [] => []
  | [w] => w
  | w :: ws => (w ++ sep ++ join sep ws)%list
  end.

Definition is_upper_ascii (c : N) : bool := (65 <=? c) && (c <=? 90).
Definition is_lower_ascii (c : N) : bool := (97 <=? c) && (c <=? 122).
Definition is_alpha_ascii (c : N) : bool := is_upper_ascii c || is_lower_ascii c.
Definition is_digit_ascii (c : N) : bool := (48 <=? c) && (c <=? 57).
Definition is_alnum_ascii (c : N) : bool := is_alpha_ascii c || is_digit_ascii c.
Definition is_hex_ascii (c : N) : bool :=
  is_digit_ascii c || ((65 <=? c) && (c <=? 70)) || ((97 <=? c) && (c <=? 102)).

(* A-Z -> a-z *)
Definition alow_c (c : N) : N := if is_upper_ascii c then c + 32 else c.
Definition alow (s : str) : str := map alow_c s.

Fixpoint lower_lookup (l : list (N * N * N * N)) (c : N) : option N :=
  match l with
  | [] => None
  | (lo, hi, step, img) :: t =>
    if (lo <=? c) && (c <=? hi) && ((c - lo) mod step =? 0) then Some (img + (c - lo)) else lower_lookup t c
  end.

(* chr(c).lower().  Simplification: Python's context rule for a final capital sigma is not modelled
   (U+03A3 always maps to U+03C3); both candidates are single non-ASCII code points. *)
Definition lower_c (c : N) : str :=
  if c <? 128 then [alow_c c]
  else if c =? 304 then [105; 775]
  else match lower_lookup lower_entries c with Some d => [d] | None => [c] end.
(* s.lower() *)
Definition lower (s : str) : str := flat_map lower_c s.

(* HTML_SPACE_CHARACTERS = "\t\n\f\r " *)
Definition is_html_space (c : N) : bool :=
  (c =? 9) || (c =? 10) || (c =? 12) || (c =? 13) || (c =? 32).

(* int(s, base) for a nonempty string of digit values already computed *)
Definition digits_value (base : N) (ds : list N) : N := fold_left (fun a d => a * base + d) ds 0.

(* dict lookup on association lists with string keys *)
Fixpoint assoc {A} (k : str) (l : list (str * A)) : option A :=
  match l with
  | [] => None
  | (k', v) :: t => if str_eqb k k' then Some v else assoc k t
  end.

(* Last-n / slices *)
Definition slice (s : str) (i j : nat) : str := firstn (j - i) (skipn i s).
