(* SPECIFICATION of positions, globs and white space (C48-C50, C52) *)
From Verif Require Import Str.
Open Scope N_scope.

(* (line, column) after reading s, counting from (1, 1) *)
Definition after (s : str) : nat * nat := fold_left (fun p c => if c =? 10 then (S (fst p), 1%nat) else (fst p, S (snd p))) s (1%nat, 1%nat).
Definition lex_lt (a b : nat * nat) : Prop := (fst a < fst b)%nat \/ (fst a = fst b /\ snd a < snd b)%nat.

(* pattern p matches t: * stands for any text, ? for one character, anything else for itself *)
Inductive glob : str -> str -> Prop :=
| G_nil : glob [] []
| G_star x p t : glob p t -> glob (42 :: p) (x ++ t)
| G_any p c t : glob p t -> glob (63 :: p) (c :: t)
| G_char p c t : c <> 42 -> c <> 63 -> glob p t -> glob (c :: p) (c :: t).

(* r is s with every maximal run of HTML white space replaced by one space *)
Inductive squeezed : str -> str -> Prop :=
| Q_word w : forallb (fun c => negb (is_html_space c)) w = true -> squeezed w w
| Q_run w ws s r : forallb (fun c => negb (is_html_space c)) w = true -> ws <> [] -> forallb is_html_space ws = true ->
    (match s with c :: _ => is_html_space c = false | [] => True end) -> squeezed s r -> squeezed (w ++ ws ++ s) (w ++ u " " ++ r).

(* the words of s, separated by HTML white space *)
Definition all_space (s : str) : Prop := forall c, In c s -> is_html_space c = true.
Definition no_space (s : str) : Prop := forall c, In c s -> is_html_space c = false.
Inductive words : str -> list str -> Prop :=
| W_end s : all_space s -> words s []
| W_word a w s ws : all_space a -> w <> [] -> no_space w -> (match s with [] => True | c :: _ => is_html_space c = true end) ->
    words s ws -> words (a ++ w ++ s) (w :: ws).

(* r is s with each maximal run of HTML white space that contains formatting characters (tab, newline, form feed, return) reduced to the plain
   spaces before the first of them, or to one space if there are none.  Runs of plain spaces stay *)
Definition formatting (c : N) : Prop := c = 9 \/ c = 10 \/ c = 12 \/ c = 13.
Inductive formatted : str -> str -> Prop :=
| F_word w : no_space w -> formatted w w
| F_spaces w sp s r : no_space w -> sp <> [] -> (forall c, In c sp -> c = 32) -> (match s with c :: _ => is_html_space c = false | [] => True end) -> formatted s r ->
    formatted (w ++ sp ++ s) (w ++ sp ++ r)
| F_run w sp f rest s r : no_space w -> (forall c, In c sp -> c = 32) -> formatting f -> all_space rest -> (match s with c :: _ => is_html_space c = false | [] => True end) -> formatted s r ->
    formatted (w ++ sp ++ f :: rest ++ s) (w ++ (match sp with [] => u " " | _ => sp end) ++ r).
(* one space less at the start, or at the end, if there is one *)
Definition cut_front (s : str) : str := match s with c :: t => if c =? 32 then t else s | [] => [] end.
Definition cut_back (s : str) : str := rev (cut_front (rev s)).

(* positions of errors: a missing line or column counts as after every known one *)
Definition opt_lt (a b : option N) : Prop := match a, b with Some x, Some y => x < y | Some _, None => True | None, _ => False end.
Definition not_after (a b : option N * option N) : Prop := opt_lt (fst a) (fst b) \/ (fst a = fst b /\ (opt_lt (snd a) (snd b) \/ snd a = snd b)).
Definition opt_eqb (a b : option N) : bool := match a, b with Some x, Some y => x =? y | None, None => true | _, _ => false end.
Definition same_pos (a b : option N * option N) : bool := opt_eqb (fst a) (fst b) && opt_eqb (snd a) (snd b).
