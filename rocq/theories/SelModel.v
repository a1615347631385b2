(* MODEL of /repo/src/justhtml/selector/core.py: the CSS selector tokenizer, parser, matcher and query functions.
   Nodes are those of DomModel.v (a heap).  Error messages carry no positions. *)
From Verif Require Import Str SerializerModel SanModel EntitiesModel DomModel.
From Coq Require Import ZArith.
Open Scope nat_scope.

(* core.py:17-18 SelectorError, by cause; [EFuel]: the model's own bound was hit *)
Inductive serr := ESyntax | ETooMany | EDeep | EEmpty | ELong | EBudget | EUnsupported (name : str) | EContains | EFuel.

(* ---------------------------------------------------------------- the tokenizer *)
(* core.py:38-52: tokens *)
Inductive comb := Desc | Child | Adj | Sib.
Inductive attr_op := OpEq | OpWord | OpDash | OpPrefix | OpSuffix | OpSub.
Inductive tok := TTag (n : str) | TId (n : str) | TClass (n : str) | TUniv | TAttrStart | TAttrEnd | TAttrOp (o : attr_op) | TString (s : str)
  | TComb (c : comb) | TComma | TColon | TOpen | TClose.

(* core.py:99-105 _is_name_start, _is_name_char *)
Definition name_start (c : N) : bool := (is_alpha c || (c =? 95) || (c =? 45) || (127 <? c))%N.
Definition name_char (c : N) : bool := name_start c || is_digit c.
(* core.py:95-97, 107-111 _skip_whitespace, _read_name *)
Definition skip_ws (s : str) : str := drop_while is_html_space s.
Definition read_name (s : str) : str * str := (take_while name_char s, drop_while name_char s).

(* core.py:113-143 _read_string, after the opening quote; None: unterminated *)
Fixpoint read_string (quote : N) (s : str) : option (str * str) :=
  match s with
  | [] => None
  | c :: t => if (c =? quote)%N then Some ([], t)
              else if (c =? 92)%N then match t with
                                       | [] => None
                                       | d :: t' => option_map (fun p => (d :: fst p, snd p)) (read_string quote t')
                                       end
              else option_map (fun p => (c :: fst p, snd p)) (read_string quote t)
  end.
(* core.py:145-153 _read_unquoted_attr_value *)
Definition unq_char (c : N) : bool := negb (is_html_space c || (c =? 93)%N).
Definition read_unquoted (s : str) : str * str := (take_while unq_char s, drop_while unq_char s).

(* core.py:221-236 the attribute operator, after the whitespace behind the name *)
Definition read_op (s : str) : option (attr_op * str) :=
  match s with
  | [] => None
  | c :: t =>
    if (c =? 61)%N then Some (OpEq, t)
    else let k := if (c =? 126)%N then Some OpWord else if (c =? 124)%N then Some OpDash else if (c =? 94)%N then Some OpPrefix
                  else if (c =? 36)%N then Some OpSuffix else if (c =? 42)%N then Some OpSub else None in
         match k, t with
         | Some o, d :: t' => if (d =? 61)%N then Some (o, t') else None
         | _, _ => None
         end
  end.
(* core.py:203-251 the attribute selector, after the bracket *)
Definition tok_attr (s : str) : option (list tok * str) :=
  let '(name, s) := read_name (skip_ws s) in
  match name with
  | [] => None
  | _ =>
    match skip_ws s with
    | [] => None
    | c :: t =>
      if (c =? 93)%N then Some ([TAttrStart; TTag name; TAttrEnd], t) else
      match read_op (c :: t) with
      | None => None
      | Some (o, s) =>
        let s := skip_ws s in
        match (match s with
               | q :: t => if ((q =? 34) || (q =? 39))%N then read_string q t else Some (read_unquoted s)
               | [] => Some ([], [])
               end) with
        | None => None
        | Some (v, s) => match skip_ws s with
                         | d :: t => if (d =? 93)%N then Some ([TAttrStart; TTag name; TAttrOp o; TString v; TAttrEnd], t) else None
                         | [] => None
                         end
        end
      end
    end
  end.
(* core.py:277-287 the argument of a functional pseudo-class: up to the matching parenthesis (excluded) *)
Fixpoint read_arg (depth : nat) (s : str) : str * str :=
  match s with
  | [] => ([], [])
  | c :: t =>
    if (c =? 40)%N then let '(a, r) := read_arg (S depth) t in (c :: a, r)
    else if (c =? 41)%N then match depth with
                             | S (S d) => let '(a, r) := read_arg (S d) t in (c :: a, r)
                             | _ => ([], s)
                             end
    else let '(a, r) := read_arg depth t in (c :: a, r)
  end.
(* core.py:260-297 a pseudo-class, after the colon *)
Definition tok_pseudo (s : str) : option (list tok * str) :=
  let '(name, s) := read_name s in
  match name with
  | [] => None
  | _ =>
    match s with
    | c :: t =>
      if (c =? 40)%N then
        let '(a, r) := read_arg 1 (skip_ws t) in
        match r with
        | [] => None
        | _ :: r => Some (TColon :: TTag name :: TOpen :: (match strip a with [] => [] | a => [TString a] end) ++ [TClose], r)%list
        end
      else Some ([TColon; TTag name], s)
    | [] => Some ([TColon; TTag name], s)
    end
  end.

(* core.py:177-305 one token group, at a character that is neither whitespace nor one of > + ~ *)
Definition tok_one (c : N) (t : str) : option (list tok * str) :=
  if (c =? 42)%N then Some ([TUniv], t)
  else if (c =? 35)%N then let '(n, r) := read_name t in match n with [] => None | _ => Some ([TId n], r) end
  else if (c =? 46)%N then let '(n, r) := read_name t in match n with [] => None | _ => Some ([TClass n], r) end
  else if (c =? 91)%N then tok_attr t
  else if (c =? 44)%N then Some ([TComma], skip_ws t)
  else if (c =? 58)%N then tok_pseudo t
  else if name_start c then let '(n, r) := read_name (c :: t) in Some ([TTag (lower n)], r)
  else None.
Definition comb_of (c : N) : option comb :=
  if (c =? 62)%N then Some Child else if (c =? 43)%N then Some Adj else if (c =? 126)%N then Some Sib else None.
(* core.py:155-308 tokenize.  [pending]: pending_whitespace; [any]: tokens is not empty; the EOF token is the end of the list.
   Fuel: every round consumes a character. *)
Fixpoint tokenize (fuel : nat) (pending any : bool) (s : str) : option (list tok) :=
  match fuel with
  | O => None
  | S k =>
    match s with
    | [] => Some []
    | c :: t =>
      if is_html_space c then tokenize k true any (skip_ws s)
      else match comb_of c with
      | Some cb => option_map (cons (TComb cb)) (tokenize k false true (skip_ws t))
      | None =>
        let lead := if pending && any && negb (c =? 44)%N then [TComb Desc] else [] in
        match tok_one c t with
        | None => None
        | Some (ts, r) => option_map (fun l => lead ++ ts ++ l)%list (tokenize k false true r)
        end
      end
    end
  end.
Definition tokens_of (s : str) : option (list tok) := tokenize (S (List.length s)) false false s.

(* ---------------------------------------------------------------- the AST *)
(* core.py:314-409.  [cid] stands for id(compound): two CompoundSelector objects have different numbers.  SNot is the SimpleSelector of
   :not(...), with its argument text and its parsed argument; a selector is the list of its complex selectors (a single one is not wrapped
   in a SelectorList, core.py:499-501). *)
Inductive simple :=
| STag (n : str) | SId (n : str) | SClass (n : str) | SUniv | SAttr (n : str) (o : option (attr_op * str))
| SPseudo (n : str) (arg : option str)
| SNot (arg : option str) (parsed : option (list (list (option comb * compound))))
with compound := Compound (cid : nat) (ss : list simple).
Definition complex := list (option comb * compound).
Definition selector := list complex.
Definition simples (c : compound) : list simple := match c with Compound _ l => l end.
Definition cid (c : compound) : nat := match c with Compound i _ => i end.

(* core.py:411-431 signatures.  The signature of a parsed :not argument is left out: it is determined by the argument text. *)
Definition attr_op_eqb (a b : attr_op) : bool :=
  match a, b with OpEq, OpEq | OpWord, OpWord | OpDash, OpDash | OpPrefix, OpPrefix | OpSuffix, OpSuffix | OpSub, OpSub => true | _, _ => false end.
Definition comb_eqb (a b : comb) : bool := match a, b with Desc, Desc | Child, Child | Adj, Adj | Sib, Sib => true | _, _ => false end.
Definition opt_eqb {A} (f : A -> A -> bool) (a b : option A) : bool :=
  match a, b with Some x, Some y => f x y | None, None => true | _, _ => false end.
Definition sig_eqb (a b : simple) : bool :=
  match a, b with
  | STag x, STag y | SId x, SId y | SClass x, SClass y => str_eqb x y
  | SUniv, SUniv => true
  | SAttr x o, SAttr y p => str_eqb x y && opt_eqb (fun o p => attr_op_eqb (fst o) (fst p) && str_eqb (snd o) (snd p)) o p
  | SPseudo x a, SPseudo y b => str_eqb x y && opt_eqb str_eqb a b
  | SNot a _, SNot b _ => opt_eqb str_eqb a b
  | _, _ => false
  end.
Definition list_eqb {A} (f : A -> A -> bool) : list A -> list A -> bool :=
  fix go a b := match a, b with [], [] => true | x :: a, y :: b => f x y && go a b | _, _ => false end.
Definition csig_eqb (a b : complex) : bool :=
  list_eqb (fun p q => opt_eqb comb_eqb (fst p) (fst q) && list_eqb sig_eqb (simples (snd p)) (simples (snd q))) a b.

(* core.py:21-33 SelectorLimits *)
Record limits := Limits { max_match_depth : nat; max_length : N; max_list_items : nat; max_simples : nat; max_parts : nat; max_parse_depth : nat }.
Definition default_limits := Limits 100 8192 256 512 512 100.

(* ---------------------------------------------------------------- the parser *)
(* a parse either fails or gives a value, the tokens left and the next unused compound number *)
Inductive pres (A : Type) := POk (a : A) (rest : list tok) (next : nat) | PErr (e : serr).
Arguments POk {A}. Arguments PErr {A}.
Section Parser.
  Variable lim : limits.
  (* _parse_selector(arg, parse_depth + 1) *)
  Variable parse_arg : str -> nat -> (selector * nat) + serr.

  (* core.py:564-585 _parse_attribute_selector, at the ATTR_START token *)
  Definition parse_attr (ts : list tok) : option (simple * list tok) :=
    match ts with
    | TAttrStart :: TTag n :: TAttrEnd :: r => Some (SAttr (lower n) None, r)
    | TAttrStart :: TTag n :: TAttrOp o :: TString v :: TAttrEnd :: r => Some (SAttr (lower n) (Some (o, v)), r)
    | _ => None
    end.
  (* core.py:587-611 _parse_pseudo_selector, at the COLON token *)
  Definition mk_pseudo (n : str) (arg : option str) (next : nat) : (simple * nat) + serr :=
    if str_eqb n (u "not") then
      match arg with
      | Some ((_ :: _) as a) => match parse_arg a next with inl (s, next) => inl (SNot arg (Some s), next) | inr e => inr e end
      | _ => inl (SNot arg None, next)
      end
    else inl (SPseudo n arg, next).
  Definition parse_pseudo (ts : list tok) (next : nat) : (simple * list tok * nat) + serr :=
    match ts with
    | TColon :: TTag n :: TOpen :: r =>
      let '(arg, r) := match r with TString a :: r => (Some a, r) | _ => (None, r) end in
      match r with
      | TClose :: r => match mk_pseudo (lower n) arg next with inl (s, next) => inl (s, r, next) | inr e => inr e end
      | _ => inr ESyntax
      end
    | TColon :: TTag n :: r => match mk_pseudo (lower n) None next with inl (s, next) => inl (s, r, next) | inr e => inr e end
    | _ => inr ESyntax
    end.
  (* core.py:523-552 one simple selector; None: the loop ends *)
  Definition parse_simple (ts : list tok) (next : nat) : option ((simple * list tok * nat) + serr) :=
    match ts with
    | TTag n :: r => Some (inl (STag n, r, next))
    | TUniv :: r => Some (inl (SUniv, r, next))
    | TId n :: r => Some (inl (SId n, r, next))
    | TClass n :: r => Some (inl (SClass n, r, next))
    | TAttrStart :: _ => Some (match parse_attr ts with Some (s, r) => inl (s, r, next) | None => inr ESyntax end)
    | TColon :: _ => Some (parse_pseudo ts next)
    | _ => None
    end.
  (* core.py:518-562 _parse_compound_selector; an empty list of simple selectors is the result None.  [acc]: simple_selectors *)
  Fixpoint parse_compound (fuel : nat) (acc : list simple) (ts : list tok) (next : nat) : pres (list simple) :=
    match fuel with
    | O => PErr EFuel
    | S k =>
      match parse_simple ts next with
      | None => POk acc ts next
      | Some (inr e) => PErr e
      | Some (inl (s, r, next)) =>
        if existsb (sig_eqb s) acc then parse_compound k acc r next
        else if max_simples lim <=? List.length acc then PErr ETooMany
        else parse_compound k (acc ++ [s]) r next
      end
    end.
  (* core.py:505-515 the loop of _parse_complex_selector *)
  Fixpoint parse_parts (fuel : nat) (acc : complex) (ts : list tok) (next : nat) : pres complex :=
    match fuel with
    | O => PErr EFuel
    | S k =>
      match ts with
      | TComb c :: r =>
        match parse_compound fuel [] r next with
        | PErr e => PErr e
        | POk [] _ _ => PErr ESyntax
        | POk ss r next =>
          if max_parts lim <=? List.length acc then PErr ETooMany
          else parse_parts k (acc ++ [(Some c, Compound next ss)]) r (S next)
        end
      | _ => POk acc ts next
      end
    end.
  (* core.py:494-516 _parse_complex_selector; an empty list of parts is the result None *)
  Definition parse_complex (fuel : nat) (ts : list tok) (next : nat) : pres complex :=
    match parse_compound fuel [] ts next with
    | PErr e => PErr e
    | POk [] r next => POk [] r next
    | POk ss r next => parse_parts fuel [(None, Compound next ss)] r (S next)
    end.
  (* core.py:475-488 the loop over the commas in parse *)
  Fixpoint parse_list (fuel : nat) (acc : selector) (ts : list tok) (next : nat) : pres selector :=
    match fuel with
    | O => PErr EFuel
    | S k =>
      match ts with
      | TComma :: r =>
        match parse_complex fuel r next with
        | PErr e => PErr e
        | POk [] r next => parse_list k acc r next
        | POk c r next =>
          if existsb (csig_eqb c) acc then parse_list k acc r next
          else if max_list_items lim <=? List.length acc then PErr ETooMany
          else parse_list k (acc ++ [c]) r next
        end
      | _ => POk acc ts next
      end
    end.
  (* core.py:463-492 parse *)
  Definition parse_tokens (ts : list tok) (next : nat) : (selector * nat) + serr :=
    let fuel := S (List.length ts) in
    match parse_complex fuel ts next with
    | PErr e => inr e
    | POk [] _ _ => inr EEmpty
    | POk c r next =>
      match parse_list fuel [c] r next with
      | PErr e => inr e
      | POk l [] next => inl (l, next)
      | POk _ (_ :: _) _ => inr ESyntax
      end
    end.
End Parser.
(* core.py:1366-1379 _parse_selector; [room]: how many more levels max_parse_depth allows *)
Fixpoint parse_at (lim : limits) (room : nat) (s : str) (next : nat) : (selector * nat) + serr :=
  match room with
  | O => inr EDeep
  | S r => match tokens_of s with
           | None => inr ESyntax
           | Some ts => parse_tokens lim (parse_at lim r) ts next
           end
  end.
(* core.py:1341-1363 parse_selector (the cache returns what was computed before) *)
Definition parse_selector (lim : limits) (s : str) : selector + serr :=
  match strip s with
  | [] => inr EEmpty
  | s => if (max_length lim <? N.of_nat (List.length s))%N then inr ELong
         else match parse_at lim (S (max_parse_depth lim)) s 0 with inl (sel, _) => inl sel | inr e => inr e end
  end.

(* ---------------------------------------------------------------- what the matcher reads from a node *)
Section Nodes.
  Variable h : heap.
  Definition name_of (x : nat) : str := nm (cell_at h x).
  (* not name.startswith("#") *)
  Definition elem (x : nat) : bool := negb (starts (u "#") (name_of x)).
  (* core.py:854-869 _node_attribute_data: attributes by lower-case name; None/empty attrs have no data *)
  Definition attrs_of (x : nat) : attr_list := match attrs (cell_at h x) with Some d => dict_at h d | None => [] end.
  Definition val_str (v : option str) : str := match v with Some s => s | None => [] end.
  Definition attrs_lower (x : nat) : list (str * str) := fold_left (fun d p => dict_set (lower (fst p)) (val_str (snd p)) d) (attrs_of x) [].
  (* core.py:836-889 class and attribute tokens *)
  Definition class_tokens (x : nat) : list str := split_ws (match assoc (u "class") (attrs_lower x) with Some v => v | None => [] end).
  (* core.py:781-834 _matches_attribute, without the byte budget *)
  Definition attr_test (x : nat) (n : str) (o : option (attr_op * str)) : bool :=
    match assoc n (attrs_lower x) with
    | None => false
    | Some v =>
      match o with
      | None => true
      | Some (OpEq, w) => str_eqb v w
      | Some (OpWord, w) => match v with [] => false | _ => in_strs w (split_ws v) end
      | Some (OpDash, w) => str_eqb v w || starts (w ++ [45%N]) v
      | Some (OpPrefix, w) => match w with [] => false | _ => starts w v end
      | Some (OpSuffix, w) => match w with [] => false | _ => ends w v end
      | Some (OpSub, w) => match w with [] => false | _ => contains w v end
      end
    end.
  (* core.py:756-759 *)
  Definition id_test (x : nat) (n : str) : bool :=
    match attrs_of x with [] => str_eqb [] n | a => match assoc (u "id") a with None => str_eqb [] n | Some None => false | Some (Some v) => str_eqb v n end end.

  (* core.py:975-1032 _parent_data, one function per dict.  A child met twice overwrites its entries: the functions below run over the
     whole list and keep the last value. *)
  Definition element_children (p : nat) : list nat := filter elem (kidl h p).
  Fixpoint prev_elem_go (x : nat) (l : list nat) (prev : option nat) (r : option nat) : option nat :=
    match l with
    | [] => r
    | c :: t => prev_elem_go x t (if elem c then Some c else prev) (if c =? x then prev else r)
    end.
  Definition previous_sibling (p x : nat) : option nat := prev_elem_go x (kidl h p) None None.
  Fixpoint index_go (want : nat -> bool) (x : nat) (l : list nat) (n : nat) (r : option nat) : option nat :=
    match l with
    | [] => r
    | c :: t => if elem c && want c then index_go want x t (S n) (if c =? x then Some (S n) else r) else index_go want x t n r
    end.
  Definition element_index (p x : nat) : option nat := index_go (fun _ => true) x (kidl h p) 0 None.
  (* type_index[child]: counted among the children of the same lower-case name *)
  Definition same_type (x c : nat) : bool := str_eqb (lower (name_of c)) (lower (name_of x)).
  Definition type_index (p x : nat) : option nat := index_go (same_type x) x (kidl h p) 0 None.
  Definition of_type (p : nat) (n : str) : list nat := filter (fun c => str_eqb (lower (name_of c)) n) (element_children p).
  Definition first_by_type (p : nat) (n : str) : option nat := hd_error (of_type p n).
  Definition last_by_type (p : nat) (n : str) : option nat := hd_error (rev (of_type p n)).
  (* child.data and child.data.strip() *)
  Definition has_text (c : nat) : bool := match data (cell_at h c) with DStr s => match strip s with [] => false | _ => true end | _ => false end.
  Definition child_counts (c : nat) : bool := if elem c then true else str_eqb (name_of c) (u "#text") && has_text c.
  Definition is_empty (x : nat) : bool := forallb (fun c => negb (child_counts c)) (kidl h x).
  Definition has_name (x : nat) (n : str) : bool := str_eqb (name_of x) n.

  (* core.py:1131-1191 _text_content, recursively; for trees without cycles *)
  Fixpoint text_content (fuel : nat) (x : nat) : str :=
    match fuel with
    | O => []
    | S k =>
      if has_name x (u "#text") then match data (cell_at h x) with DStr s => strip s | _ => [] end
      else join [32%N] (filter (fun s => match s with [] => false | _ => true end)
             (map (text_content k) (kidl h x ++ match tcon (cell_at h x) with Some f => [f] | None => [] end)))
    end.

  (* core.py:1193-1239 *)
  Definition opt_is (o : option nat) (x : nat) : bool := match o with Some y => y =? x | None => false end.
  Definition is_first_child (x : nat) : bool := match par (cell_at h x) with None => false | Some p => opt_is (hd_error (element_children p)) x end.
  Definition is_last_child (x : nat) : bool := match par (cell_at h x) with None => false | Some p => opt_is (hd_error (rev (element_children p))) x end.
  Definition is_first_of_type (x : nat) : bool :=
    match par (cell_at h x) with None => false | Some p => opt_is (first_by_type p (lower (name_of x))) x end.
  Definition is_last_of_type (x : nat) : bool :=
    match par (cell_at h x) with None => false | Some p => opt_is (last_by_type p (lower (name_of x))) x end.
  Definition is_root (x : nat) : bool :=
    match par (cell_at h x) with None => false | Some p => has_name p (u "#document") || has_name p (u "#document-fragment") end.
End Nodes.

(* int(s): whitespace around, a sign, digits with single underscores between them; None = ValueError.  [gap]: an underscore was just read or no
   digit was read yet *)
Fixpoint int_digits (gap : bool) (acc : N) (s : str) : option N :=
  match s with
  | [] => if gap then None else Some acc
  | c :: t => if (c =? 95)%N then (if gap then None else int_digits true acc t)
              else match py_digit false c with Some d => int_digits false (acc * 10 + d) t | None => None end
  end.
Definition py_int_str (s : str) : option Z :=
  match strip s with
  | [] => None
  | c :: t => if (c =? 45)%N then option_map (fun n => (- Z.of_N n)%Z) (int_digits true 0 t)
              else if (c =? 43)%N then option_map Z.of_N (int_digits true 0 t)
              else option_map Z.of_N (int_digits true 0 (c :: t))
  end.
(* core.py:1250-1298 _parse_nth_expression_uncached *)
Definition parse_nth (e : option str) : option (Z * Z) :=
  match e with
  | None | Some [] => None
  | Some e =>
    let e := lower (strip e) in
    if str_eqb e (u "odd") then Some (2, 1)%Z else if str_eqb e (u "even") then Some (2, 0)%Z else
    let e := replace_char 32 [] e in
    if mem 110 e then
      match split_char 110 e with
      | ap :: rest =>
        let bp := match rest with b :: _ => b | [] => [] end in
        match (match ap with
               | [] => Some 1%Z
               | _ => if str_eqb ap (u "+") then Some 1%Z else if str_eqb ap (u "-") then Some (-1)%Z else py_int_str ap
               end),
              (match bp with [] => Some 0%Z | _ => py_int_str bp end) with
        | Some a, Some b => Some (a, b)
        | _, _ => None
        end
      | [] => None
      end
    else match py_int_str e with Some b => Some (0%Z, b) | None => None end
  end.
(* core.py:1300-1310 _matches_nth (Python % : floor) *)
Definition matches_nth (index a b : Z) : bool :=
  (if a =? 0 then index =? b
   else let diff := index - b in
   if 0 <? a then (0 <=? diff) && (diff mod a =? 0) else (diff <=? 0) && (diff mod a =? 0))%Z.
(* core.py:1312-1338 *)
Definition nth_test (arg : option str) (index : option nat) : bool :=
  match parse_nth arg, index with Some (a, b), Some i => matches_nth (Z.of_nat i) a b | _, _ => false end.

(* core.py:683-691 _unquote_pseudo_arg *)
Definition unquote (a : str) : str :=
  let a := strip a in
  match a with
  | q :: ((_ :: _) as t) =>
    if ((q =? 34) || (q =? 39))%N && (last t 0 =? q)%N then
      replace [92; 92]%N [92]%N (replace [92; q]%N [q] (removelast t))
    else a
  | _ => a
  end.

(* ---------------------------------------------------------------- the matcher *)
(* core.py:639-678 SelectorQueryContext.  [clock] counts the calls of tick/tick_bytes; which of them exceeds its budget is decided by a
   function of the clock that is left arbitrary.  The caches of pure data (attributes, parent data, nth expressions, text) are not kept:
   the tree does not change during a query.  The two-level dict ancestor_match_cache is flattened: (cid, depth, node) -> result. *)
Record qstate := QState { clock : nat; anc_cache : list (nat * nat * nat * option nat); prev_cache : list (nat * nat * nat * list (nat * option nat)) }.
Definition fresh_state := QState 0 [] [].
Inductive mres (A : Type) := MOk (a : A) (s : qstate) | MErr (e : serr).
Arguments MOk {A}. Arguments MErr {A}.
Definition M (A : Type) := qstate -> mres A.
Definition ret_ {A} (a : A) : M A := fun s => MOk a s.
Definition raise {A} (e : serr) : M A := fun _ => MErr e.
Definition bind {A B} (m : M A) (f : A -> M B) : M B := fun s => match m s with MOk a s => f a s | MErr e => MErr e end.
Notation "x <- m ;; f" := (bind m (fun x => f)) (at level 61, m at next level, right associativity).
Notation "m ;;; f" := (bind m (fun _ => f)) (at level 61, right associativity).

Definition key_eqb (a b : nat * nat * nat) : bool :=
  let '(x, y, z) := a in let '(x', y', z') := b in (x =? x') && (y =? y') && (z =? z').
Fixpoint lookup {A} (k : nat * nat * nat) (l : list (nat * nat * nat * A)) : option A :=
  match l with [] => None | (k', v) :: t => if key_eqb k k' then Some v else lookup k t end.
(* dict lookup in a list of assignments, the last assignment wins *)
Fixpoint get_last (x : nat) (l : list (nat * option nat)) (r : option nat) : option nat :=
  match l with [] => r | (k, v) :: t => get_last x t (if k =? x then v else r) end.

Section Matcher.
  Variable h : heap.
  Variable over : nat -> bool. (* does the budget run out at this tick? *)
  Definition tick : M unit := fun s => if over (clock s) then MErr EBudget else MOk tt (QState (S (clock s)) (anc_cache s) (prev_cache s)).

  Section Level.
    (* the nesting level, and _matches one level deeper *)
    Variable depth : nat.
    Variable deeper : nat -> selector -> M bool.

    (* core.py:898-962 _matches_pseudo *)
    Definition matches_pseudo (x : nat) (n : str) (arg : option str) : M bool :=
      if str_eqb n (u "first-child") then tick ;;; ret_ (is_first_child h x)
      else if str_eqb n (u "last-child") then tick ;;; ret_ (is_last_child h x)
      else if str_eqb n (u "nth-child") then
        tick ;;; ret_ (match par (cell_at h x) with None => false | Some p => nth_test arg (element_index h p x) end)
      else if str_eqb n (u "only-child") then tick ;;; ret_ (is_first_child h x && is_last_child h x)
      else if str_eqb n (u "empty") then tick ;;; ret_ (is_empty h x)
      else if str_eqb n (u "root") then ret_ (is_root h x)
      else if str_eqb n (u "contains") then
        match arg with
        | None => raise EContains
        | Some a => tick ;;; match unquote a with
                             | [] => ret_ true
                             | needle => tick ;;; ret_ (contains needle (text_content h (S (hnext h)) x))
                             end
        end
      else if str_eqb n (u "comment") then ret_ (has_name h x (u "#comment"))
      else if str_eqb n (u "first-of-type") then tick ;;; ret_ (is_first_of_type h x)
      else if str_eqb n (u "last-of-type") then tick ;;; ret_ (is_last_of_type h x)
      else if str_eqb n (u "nth-of-type") then
        tick ;;; ret_ (match par (cell_at h x) with None => false | Some p => nth_test arg (type_index h p x) end)
      else if str_eqb n (u "only-of-type") then tick ;;; ret_ (is_first_of_type h x && is_last_of_type h x)
      else raise (EUnsupported n).
    (* core.py:910-914 :not *)
    Definition matches_not (x : nat) (parsed : option selector) : M bool :=
      match parsed with None => ret_ true | Some s => b <- deeper x s ;; ret_ (negb b) end.

    (* core.py:732-774 _matches_simple *)
    Definition matches_simple (x : nat) (s : simple) : M bool :=
      tick ;;;
      if negb (elem h x) then
        match s with SPseudo n a => matches_pseudo x n a | SNot _ p => matches_not x p | _ => ret_ false end
      else
      match s with
      | SUniv => ret_ true
      | STag n => ret_ (str_eqb (name_of h x) n || str_eqb (lower (name_of h x)) n)
      | SId n => ret_ (id_test h x n)
      | SClass n => tick ;;; ret_ (in_strs n (class_tokens h x))
      | SAttr n o => tick ;;; ret_ (attr_test h x n o)
      | SPseudo n a => matches_pseudo x n a
      | SNot _ p => matches_not x p
      end.
    (* core.py:728-730 _matches_compound *)
    Fixpoint matches_all (x : nat) (l : list simple) : M bool :=
      match l with [] => ret_ true | s :: t => b <- matches_simple x s ;; if b then matches_all x t else ret_ false end.
    Definition matches_compound (x : nat) (c : compound) : M bool := matches_all x (simples c).

    (* core.py:1097-1129 _closest_matching_ancestor: the walk; returns the result and the path.  The visited set only matters in a cycle, which
       the fuel covers. *)
    Fixpoint walk_up (fuel : nat) (c : compound) (a : option nat) (path : list nat) : M (option nat * list nat) :=
      match fuel with
      | O => raise EFuel
      | S k =>
        match a with
        | None => ret_ (None, path)
        | Some a =>
          tick ;;;
          fun s =>
          match lookup (cid c, depth, a) (anc_cache s) with
          | Some found => MOk (found, path) s
          | None => (b <- matches_compound a c ;; if b then ret_ (Some a, path) else walk_up k c (par (cell_at h a)) (path ++ [a])) s
          end
        end
      end.
    Definition remember (c : compound) (found : option nat) (nodes : list nat) : M unit := fun s =>
      MOk tt (QState (clock s) (rev (map (fun n => (cid c, depth, n, found)) nodes) ++ anc_cache s) (prev_cache s)).
    Definition closest (x : nat) (c : compound) : M (option nat) := fun s =>
      match lookup (cid c, depth, x) (anc_cache s) with
      | Some found => MOk found s
      | None => (r <- walk_up (S (hnext h)) c (par (cell_at h x)) [] ;; remember c (fst r) (x :: snd r) ;;; ret_ (fst r)) s
      end.

    (* core.py:1086-1095 _compound_tag_name, _element_child_names *)
    Definition tag_of (s : simple) : option str := match s with STag ((_ :: _) as n) => Some n | _ => None end.
    Definition compound_tag (c : compound) : option str :=
      (fix go l := match l with [] => None | s :: t => match tag_of s with Some n => Some n | None => go t end end) (simples c).
    Definition child_names (p : nat) : list str := map (fun c => lower (name_of h c)) (element_children h p).
    (* core.py:1071-1082 the loop over the siblings: the assignments to cached *)
    Fixpoint sib_loop (c : compound) (l : list nat) (last_match : option nat) : M (list (nat * option nat)) :=
      match l with
      | [] => ret_ []
      | y :: t =>
        tick ;;;
        b <- (if elem h y then matches_compound y c else ret_ false) ;;
        r <- sib_loop c t (if b then Some y else last_match) ;;
        ret_ ((y, last_match) :: r)
      end.
    (* core.py:1061-1084 _previous_matching_sibling *)
    Definition previous_matching (x : nat) (c : compound) : M (option nat) :=
      match par (cell_at h x) with
      | None => ret_ None
      | Some p =>
        tick ;;;
        if match compound_tag c with Some n => negb (in_strs n (child_names p)) | None => false end then ret_ None
        else fun s =>
        match lookup (p, cid c, depth) (prev_cache s) with
        | Some d => MOk (get_last x d None) s
        | None => (d <- sib_loop c (kidl h p) None ;;
                   fun s => MOk (get_last x d None) (QState (clock s) (anc_cache s) ((p, cid c, depth, d) :: prev_cache s))) s
        end
      end.

    (* core.py:684-726 the loop of _matches_complex: [cb] is the combinator on the left of [current]'s part, [rest] the parts left of it,
       from right to left *)
    Fixpoint match_left (current : nat) (cb : option comb) (rest : list (option comb * compound)) : M bool :=
      match rest with
      | [] => ret_ true
      | (cb', c) :: rest' =>
        match cb with
        | Some Desc => a <- closest current c ;; match a with None => ret_ false | Some a => match_left a cb' rest' end
        | Some Child => match par (cell_at h current) with
                        | None => ret_ false
                        | Some p => b <- matches_compound p c ;; if b then match_left p cb' rest' else ret_ false
                        end
        | Some Adj => match (match par (cell_at h current) with None => None | Some p => previous_sibling h p current end) with
                      | None => ret_ false
                      | Some y => tick ;;; b <- matches_compound y c ;; if b then match_left y cb' rest' else ret_ false
                      end
        | _ => a <- previous_matching current c ;; match a with None => ret_ false | Some a => match_left a cb' rest' end
        end
      end.
    (* core.py:713-726 _matches_complex *)
    Definition matches_complex (x : nat) (c : complex) : M bool :=
      match rev c with
      | [] => ret_ false
      | (cb, last) :: rest => b <- matches_compound x last ;; if b then match_left x cb rest else ret_ false
      end.
    Fixpoint matches_any (x : nat) (l : selector) : M bool :=
      match l with [] => ret_ false | c :: t => tick ;;; b <- matches_complex x c ;; if b then ret_ true else matches_any x t end.
  End Level.

  (* core.py:697-711 _matches; [room]: how many more levels max_match_depth allows, which is also used as the level in cache keys *)
  Fixpoint matches_at (room : nat) (x : nat) (s : selector) : M bool :=
    tick ;;;
    match room with
    | O => raise EDeep
    | S r => match s with
             | [c] => matches_complex room (matches_at r) x c
             | _ => matches_any room (matches_at r) x s
             end
    end.
End Matcher.

(* core.py:693-695 SelectorMatcher.matches under the default limits *)
Definition matcher_matches (h : heap) (over : nat -> bool) (x : nat) (s : selector) : M bool := matches_at h over (S (max_match_depth default_limits)) x s.

(* ---------------------------------------------------------------- queries *)
(* core.py:1382-1392 _is_simple_tag_selector *)
Definition is_simple_tag (s : str) : bool :=
  match s with
  | [] => false
  | c :: t => name_start c && forallb (fun c => is_alnum c || (c =? 95) || (c =? 45) || (127 <? c))%N t
  end.
(* core.py:1395-1409 _selector_allows_non_elements *)
Definition simple_allows (s : simple) : bool := match s with SPseudo n _ => str_eqb n (u "comment") | _ => false end.
Definition allows_non_elements (s : selector) : bool := existsb (existsb (fun p => existsb simple_allows (simples (snd p)))) s.
(* what is pushed for a node, the next to be popped first: template contents, then the children (core.py:1424-1431, 1447-1455, 1506-1513, 1533-1540) *)
Definition pushes (h : heap) (x : nat) : list nat :=
  ((if has_name h x (u "template") && opt_str_eqb (ns (cell_at h x)) (u "html")
    then match tcon (cell_at h x) with Some f => [f] | None => [] end else []) ++ kidl h x)%list.
(* core.py:1432-1455, 1514-1540 the loop of both query functions: [hit] decides whether a node is a result *)
Fixpoint query_loop (h : heap) (over : nat -> bool) (hit : nat -> M bool) (fuel : nat) (stack visited : list nat) : M (list nat) :=
  match fuel with
  | O => raise EFuel
  | S k =>
    match stack with
    | [] => ret_ []
    | x :: rest =>
      tick over ;;;
      if existsb (Nat.eqb x) visited then query_loop h over hit k rest visited
      else b <- hit x ;;
           r <- query_loop h over hit k (pushes h x ++ rest) (x :: visited) ;;
           ret_ (if b then x :: r else r)
    end
  end.
(* core.py:1412-1455 _query_descendants_tag *)
Definition tag_hit (h : heap) (tag : str) (x : nat) : M bool :=
  ret_ (elem h x && (str_eqb (name_of h x) tag || str_eqb (lower (name_of h x)) tag)).
(* core.py:1524-1531 *)
Definition selector_hit (h : heap) (over : nat -> bool) (s : selector) (x : nat) : M bool :=
  if allows_non_elements s then matcher_matches h over x s else if elem h x then matcher_matches h over x s else ret_ false.
(* core.py:1458-1493 query *)
Definition query (fuel : nat) (h : heap) (over : nat -> bool) (root : nat) (text : str) : list nat + serr :=
  match strip text with
  | [] => inr EEmpty
  | s =>
    if (max_length default_limits <? N.of_nat (List.length s))%N then inr ELong
    else match (if is_simple_tag s then inl (tag_hit h (lower s))
                else match parse_selector default_limits s with inl sel => inl (selector_hit h over sel) | inr e => inr e end) with
         | inr e => inr e
         | inl hit => match query_loop h over hit fuel (pushes h root) [root] fresh_state with MOk l _ => inl l | MErr e => inr e end
         end
  end.
(* core.py:1543-1555 matches *)
Definition matches (h : heap) (over : nat -> bool) (x : nat) (text : str) : bool + serr :=
  match parse_selector default_limits text with
  | inr e => inr e
  | inl s => match matcher_matches h over x s fresh_state with MOk b _ => inl b | MErr e => inr e end
  end.
