(* SPECIFICATION: the selector that a text denotes - a grammar, written as an inductive relation between texts and selectors. *)
From Verif Require Import Str SerializerModel SanModel DomModel DomSpec SelModel SelSpec.
Open Scope nat_scope.

(* names: letters, digits, - and _, and everything outside ASCII; a tag name does not start with a digit *)
Definition ident_char (c : N) : bool := ((65 <=? c) && (c <=? 90) || (97 <=? c) && (c <=? 122) || (48 <=? c) && (c <=? 57) || (c =? 95) || (c =? 45) || (127 <? c))%N.
Definition ident (n : str) : Prop := n <> [] /\ forallb ident_char n = true.
Definition tag_name (n : str) : Prop := ident n /\ match n with c :: _ => is_digit_ascii c = false | [] => False end.
Definition blank (w : str) : Prop := forallb is_html_space w = true.
(* every parenthesis in [s] is matched *)
Fixpoint balanced_from (open : nat) (s : str) : bool :=
  match s with
  | [] => open =? 0
  | c :: t => if (c =? 40)%N then balanced_from (S open) t
              else if (c =? 41)%N then match open with O => false | S o => balanced_from o t end
              else balanced_from open t
  end.
Definition balanced (s : str) : Prop := balanced_from 0 s = true.
(* an argument between parentheses *)
Definition argument (a : str) : Prop := a <> [] /\ balanced a /\ strip a = a.
Definition op_text (o : attr_op) : str :=
  match o with OpEq => u "=" | OpWord => u "~=" | OpDash => u "|=" | OpPrefix => u "^=" | OpSuffix => u "$=" | OpSub => u "*=" end.
(* the text of an attribute value: in single or double quotes, a backslash before a character that stands for itself; or without quotes *)
Inductive quoted_text (q : N) : str -> str -> Prop :=
| qt_end : quoted_text q [] []
| qt_char : forall c v t, c <> q -> c <> 92%N -> quoted_text q v t -> quoted_text q (c :: v) (c :: t)
| qt_esc : forall c v t, quoted_text q v t -> quoted_text q (c :: v) (92%N :: c :: t).
Inductive value_text : str -> str -> Prop :=
| vt_quoted : forall q v t, q = 34%N \/ q = 39%N -> quoted_text q v t -> value_text v ([q] ++ t ++ [q])
| vt_bare : forall v, v <> [] -> forallb (fun c => negb (is_html_space c || (c =? 93)%N)) v = true -> (forall c t, v = c :: t -> c <> 34%N /\ c <> 39%N) -> value_text v v.
(* combinators between compound selectors *)
Inductive comb_text : comb -> str -> Prop :=
| cbt_desc : forall w, blank w -> w <> [] -> comb_text Desc w
| cbt_child : forall w w', blank w -> blank w' -> comb_text Child (w ++ u ">" ++ w')
| cbt_adj : forall w w', blank w -> blank w' -> comb_text Adj (w ++ u "+" ++ w')
| cbt_sib : forall w w', blank w -> blank w' -> comb_text Sib (w ++ u "~" ++ w').

(* Repeated simple selectors in a compound, and repeated alternatives in a list, are dropped by the parser: the grammar leaves such texts out.
   (:not is told apart by the text of its argument.) *)
Definition shown (s : simple) : simple := match s with SNot a _ => SNot a None | s => s end.
Definition distinct_simples (ss : list simple) : Prop := NoDup (map shown ss) /\ List.length ss <= max_simples default_limits.
Definition shown_complex (c : complex) : list (option comb * list simple) := map (fun p => (fst p, map shown (simples (snd p)))) c.
Definition distinct_alternatives (s : selector) : Prop := NoDup (map shown_complex s) /\ List.length s <= max_list_items default_limits.

(* [depth]: an upper bound for the nesting of :not().  All compounds carry the number 0. *)
Inductive simple_text : nat -> simple -> str -> Prop :=
| st_univ : forall d, simple_text d SUniv (u "*")
| st_id : forall d n, ident n -> simple_text d (SId n) (u "#" ++ n)
| st_class : forall d n, ident n -> simple_text d (SClass n) (u "." ++ n)
| st_attr : forall d n w w', ident n -> blank w -> blank w' -> simple_text d (SAttr (lower n) None) (u "[" ++ w ++ n ++ w' ++ u "]")
| st_attr_op : forall d n o v t w1 w2 w3 w4, ident n -> value_text v t -> blank w1 -> blank w2 -> blank w3 -> blank w4 ->
    simple_text d (SAttr (lower n) (Some (o, v))) (u "[" ++ w1 ++ n ++ w2 ++ op_text o ++ w3 ++ t ++ w4 ++ u "]")
| st_pseudo : forall d n, ident n -> lower n <> u "not" -> simple_text d (SPseudo (lower n) None) (u ":" ++ n)
| st_pseudo_arg : forall d n a, ident n -> lower n <> u "not" -> argument a -> simple_text d (SPseudo (lower n) (Some a)) (u ":" ++ n ++ u "(" ++ a ++ u ")")
| st_not : forall d n s a, ident n -> lower n = u "not" -> argument a -> selector_text d s a ->
    simple_text (S d) (SNot (Some a) (Some s)) (u ":" ++ n ++ u "(" ++ a ++ u ")")
with simples_text : nat -> list simple -> str -> Prop :=
| sst_nil : forall d, simples_text d [] []
| sst_cons : forall d s t ss t', simple_text d s t -> simples_text d ss t' -> simples_text d (s :: ss) (t ++ t')
(* a compound: a tag name comes first *)
with compound_text : nat -> list simple -> str -> Prop :=
| ct_tag : forall d n ss t, tag_name n -> simples_text d ss t -> distinct_simples (STag (lower n) :: ss) -> compound_text d (STag (lower n) :: ss) (n ++ t)
| ct_plain : forall d ss t, simples_text d ss t -> ss <> [] -> distinct_simples ss -> compound_text d ss t
with tail_text : nat -> complex -> str -> Prop :=
| tt_nil : forall d, tail_text d [] []
| tt_cons : forall d cb w ss t c t', comb_text cb w -> compound_text d ss t -> tail_text d c t' -> tail_text d ((Some cb, Compound 0 ss) :: c) (w ++ t ++ t')
with complex_text : nat -> complex -> str -> Prop :=
| cx : forall d ss t c t', compound_text d ss t -> tail_text d c t' -> List.length c < max_parts default_limits -> complex_text d ((None, Compound 0 ss) :: c) (t ++ t')
with rest_text : nat -> selector -> str -> Prop :=
| rt_nil : forall d, rest_text d [] []
| rt_cons : forall d w w' c t s t', blank w -> blank w' -> complex_text d c t -> rest_text d s t' -> rest_text d (c :: s) (w ++ u "," ++ w' ++ t ++ t')
with selector_text : nat -> selector -> str -> Prop :=
| sx : forall d c t s t', complex_text d c t -> rest_text d s t' -> distinct_alternatives (c :: s) -> selector_text d (c :: s) (t ++ t').

(* the selector with all compound numbers set to 0 *)
Fixpoint erase (s : simple) : simple :=
  match s with
  | SNot a (Some l) => SNot a (Some (map (map (fun p => (fst p, match snd p with Compound _ ss => Compound 0 (map erase ss) end))) l))
  | s => s
  end.
Definition erase_compound (c : compound) : compound := Compound 0 (map erase (simples c)).
Definition erase_selector (s : selector) : selector := map (map (fun p => (fst p, erase_compound (snd p)))) s.
(* [t] is the text of [s], within the limits of the implementation, without white space at its ends *)
Definition text_of_selector (t : str) (d : nat) (s : selector) : Prop :=
  selector_text d s t /\ strip t = t /\ (N.of_nat (List.length t) <= max_length default_limits)%N /\ d <= max_parse_depth default_limits.
