(* MODEL of small pure functions: source positions, error lists, attribute globs, white space. *)
From Verif Require Import Str.
Open Scope N_scope.

(* ---------- positions: parser/engine.py:1337-1356 _line_col_at_pos ---------- *)
(* 1343-1352 the loop html.find(newline, find_from); None: out of fuel *)
Fixpoint starts_loop (fuel : nat) (html : str) (find_from : nat) : option (list nat) :=
  match fuel with
  | O => None
  | S k => match find_char 10 (skipn find_from html) with
           | None => Some []
           | Some i => option_map (cons (S (find_from + i))) (starts_loop k html (S (find_from + i)))
           end
  end.
Definition line_starts (html : str) : option (list nat) := option_map (cons O) (starts_loop (S (List.length html)) html O).
(* bisect.bisect_right(a, x): the library's loop *)
Fixpoint bisect (fuel : nat) (a : list nat) (x lo hi : nat) : nat :=
  match fuel with
  | O => lo
  | S k => if (lo <? hi)%nat then
             let mid := ((lo + hi) / 2)%nat in
             if (x <? nth mid a O)%nat then bisect k a x lo mid else bisect k a x (S mid) hi
           else lo
  end.
Definition bisect_right (a : list nat) (x : nat) : nat := bisect (S (List.length a)) a x O (List.length a).
(* offsets past the end mean the last character; negative offsets do not occur *)
Definition line_col (html : str) (pos : nat) : option (nat * nat) :=
  let pos := if (List.length html <=? pos)%nat then (List.length html - 1)%nat else pos in
  option_map (fun starts => let i := (bisect_right starts pos - 1)%nat in (S i, S (pos - nth i starts O))) (line_starts html).

(* ---------- error lists ---------- *)
Section Errors.
Variable E : Type.
Variables line column : E -> option N.
(* parser/__init__.py:57-68 _BoundedErrorList.append; parser/engine.py:1444-1472 _emit_error has the same guard *)
Definition bounded_append (max : nat) (l : list E) (e : E) : list E := if (List.length l <? max)%nat then (l ++ [e])%list else l.
Definition emit_all (max : nat) (es : list E) : list E := fold_left (bounded_append max) es [].
(* parser/__init__.py:409-421 _sorted_errors: sorted() with the key (line, column, index); None counts as 10^9 *)
Definition key_part (x : option N) : N := match x with Some n => n | None => 1000000000 end.
Definition key (t : nat * E) : N * N * nat := (key_part (line (snd t)), key_part (column (snd t)), fst t).
Definition key_lt (a b : N * N * nat) : bool :=
  let '(l1, c1, i1) := a in let '(l2, c2, i2) := b in
  (l1 <? l2) || ((l1 =? l2) && ((c1 <? c2) || ((c1 =? c2) && (i1 <? i2)%nat))).
Fixpoint insert (x : nat * E) (l : list (nat * E)) : list (nat * E) :=
  match l with [] => [x] | y :: t => if key_lt (key x) (key y) then x :: y :: t else y :: insert x t end.
Definition sorted_errors (es : list E) : list E := map snd (fold_left (fun acc x => insert x acc) (combine (seq O (List.length es)) es) []).
(* parser/__init__.py:204-216 the errors of a document: the parser's, then the transforms' *)
Definition document_errors (max : nat) (collect : bool) (parse_errors transform_errors : list E) : list E :=
  let pe := if collect then emit_all max parse_errors else [] in
  let te := emit_all (max - List.length pe) transform_errors in
  if collect then sorted_errors (pe ++ te) else te.
End Errors.

(* ---------- globs: transforms/compile.py:205-247 _glob_match ---------- *)
(* p, t: what is left of the pattern and the text; star: both where the last star was found.  None: out of fuel *)
Fixpoint glob_loop (fuel : nat) (p t : str) (star : option (str * str)) : option bool :=
  match fuel with
  | O => None
  | S k =>
    match t with
    | [] => Some (match drop_while (fun c => c =? 42) p with [] => true | _ => false end)
    | c :: t' =>
      let backtrack := match star with
                       | Some (sp, _ :: st) => glob_loop k sp st (Some (sp, st))
                       | _ => Some false
                       end in
      match p with
      | x :: p' => if (x =? 63) || (x =? c) then glob_loop k p' t' star
                   else if x =? 42 then glob_loop k p' t (Some (p', t))
                   else backtrack
      | [] => backtrack
      end
    end
  end.
Definition glob_fuel (p t : str) : nat := ((List.length t + 2) * (List.length p + List.length t + 2))%nat.
Definition glob_match (pattern text : str) : option bool :=
  if str_eqb pattern (u "*") then Some true
  else if negb (mem 42 pattern) && negb (mem 63 pattern) then Some (str_eqb pattern text)
  else glob_loop (glob_fuel pattern text) pattern text None.
(* transforms/compile.py:655-659 the test used for the patterns *:*, on*, srcdoc *)
Definition unsafe_key (lower_key : str) : bool := starts (u "on") lower_key || str_eqb lower_key (u "srcdoc") || mem 58 lower_key.
(* transforms/compile.py:640-718 _drop_attrs, without hooks and reports: the new attributes; None: unchanged, or out of fuel (excluded by C49_terminates) *)
Definition any_match (patterns : list str) (key : str) : bool := existsb (fun p => match glob_match p key with Some true => true | _ => false end) patterns.
Definition blank (k : str) : bool := match strip k with [] => true | _ => false end.
Fixpoint dict_put {V} (k : str) (v : V) (d : list (str * V)) : list (str * V) :=
  match d with [] => [(k, v)] | (k', v') :: t => if str_eqb k k' then (k', v) :: t else (k', v') :: dict_put k v t end.
Definition drop_attrs {V} (patterns : list str) (attrs : list (str * V)) : option (list (str * V)) :=
  match attrs, patterns with
  | [], _ => None
  | _, [] => None
  | _, _ =>
    if forallb (fun p => str_eqb (fst p) (snd p)) (combine patterns [u "*:*"; u "on*"; u "srcdoc"]) && (List.length patterns =? 3)%nat then
      if existsb (fun kv => unsafe_key (lower (fst kv))) attrs then Some (filter (fun kv => negb (unsafe_key (lower (fst kv)))) attrs) else None
    else if existsb (fun kv => negb (blank (fst kv)) && any_match patterns (lower (fst kv))) attrs then
      Some (fold_left (fun out kv => if blank (fst kv) || any_match patterns (lower (fst kv)) then out else dict_put (lower (fst kv)) (snd kv) out) attrs [])
    else None
  end.

(* ---------- white space ---------- *)
Definition is_formatting (c : N) : bool := (c =? 9) || (c =? 10) || (c =? 12) || (c =? 13).
(* the loop shared by transforms/__init__.py:152-166 and serializer/html.py:481-491 *)
Fixpoint collapse_loop (in_ws : bool) (s : str) : str :=
  match s with
  | [] => []
  | c :: t => if is_html_space c then (if in_ws then collapse_loop true t else 32 :: collapse_loop true t) else c :: collapse_loop false t
  end.
(* transforms/__init__.py:141-166 _collapse_html_space_characters *)
Definition collapse_spaces (text : str) : str :=
  if negb (existsb is_formatting text) && negb (contains (u "  ") text) then text else collapse_loop false text.
(* serializer/html.py:467-495 _collapse_html_whitespace *)
Definition collapse_html (text : str) : str :=
  match text with
  | [] => []
  | _ => if mem 11 text then strip_chars (u " ") (collapse_loop false text) else join (u " ") (split_ws text)
  end.
(* serializer/html.py:498-551 _normalize_formatting_whitespace *)
Fixpoint format_loop (in_ws saw : bool) (s : str) : str :=
  match s with
  | [] => []
  | c :: t =>
    if c =? 32 then
      if in_ws then (if saw then format_loop true true t else 32 :: format_loop true false t) else 32 :: format_loop true false t
    else if is_formatting c then
      if in_ws then format_loop true true t else 32 :: format_loop true true t
    else c :: format_loop false false t
  end.
Definition normalize_formatting (text : str) : str :=
  match text with
  | [] => []
  | c :: _ =>
    if negb (existsb is_formatting text) then text else
    let n := format_loop false false text in
    let n := if is_formatting c && starts (u " ") n then skipn 1 n else n in
    if is_formatting (last text 0) && ends (u " ") n then removelast n else n
  end.
