(* MODEL of /repo/src/justhtml/sanitizer/css.py. *)
From Verif Require Import Str UrlModel.
Open Scope N_scope.

(* css.py:23-32 _is_valid_css_property_name *)
Definition valid_property_char (c : N) : bool := is_lower_ascii c || is_digit_ascii c || (c =? 45).
Definition valid_property_name (name : str) : bool :=
  match name with [] => false | _ => forallb valid_property_char name end.

(* css.py:52-73 the scan of _css_value_contains_disallowed_functions: comments and ASCII whitespace/control characters are
   left out, A-Z folded.  [None]: an unterminated comment.  [inc]: inside a comment.  [skip]: characters already consumed. *)
Fixpoint compact_go (inc : bool) (skip : nat) (s : str) : option str :=
  match s with
  | [] => if inc then None else Some []
  | c :: t =>
    match skip with
    | S k => compact_go inc k t
    | O =>
      let nxt := match t with d :: _ => Some d | [] => None end in
      if inc then
        match nxt with
        | None => None
        | Some d => if (c =? 42) && (d =? 47) then compact_go false 1 t else compact_go true 0 t
        end
      else if (c =? 47) && match nxt with Some d => d =? 42 | None => false end then compact_go true 1 t
      else if (c <=? 32) || (c =? 127) then compact_go false 0 t
      else option_map (cons (alow_c c)) (compact_go false 0 t)
    end
  end.
Definition compact (s : str) : option str := compact_go false 0 s.
(* str.removesuffix *)
Definition removesuffix (suf s : str) : str := if ends suf s then firstn (List.length s - List.length suf) s else s.
(* css.py:75-78, 280 *)
Definition ambient_values : list str := [u "inherit"; u "revert"; u "revert-layer"; u "unset"].
(* css.py:80-94 *)
Definition blocked_tokens : list str :=
  [u "@import"; u "var("; u ":inherit"; u ":revert"; u ":unset"; u "src("; u "image("; u "image-set("; u "expression(";
   u "progid:"; u "alphaimageloader"; u "behavior:"; u "-moz-binding"].
(* css.py:35-98 _css_value_contains_disallowed_functions; 101-108 its two wrappers *)
Definition disallowed_functions (value : str) (allow_url : bool) : bool :=
  if mem 92 value then true else
  match compact value with
  | None => true
  | Some c =>
    if in_strs (removesuffix (u "!important") c) ambient_values then true
    else if existsb (fun b => contains b c) blocked_tokens then true
    else negb allow_url && contains (u "url(") c
  end.

(* dict.get on (tag, key) pairs *)
Fixpoint get_rule (tag key : str) (l : list (str * str * url_rule)) : option url_rule :=
  match l with
  | [] => None
  | (t, k, r) :: l' => if str_eqb tag t && str_eqb key k then Some r else get_rule tag key l'
  end.
(* css.py:111-113 _lookup_css_url_rule *)
Definition lookup_css_rule (p : url_policy) (tag prop : str) : option url_rule :=
  let key := (u "style:" ++ prop)%list in
  match get_rule tag key (allow_rules p) with Some r => Some r | None => get_rule [42] key (allow_rules p) end.

(* s.find(needle, i) *)
Definition find_from (needle s : str) (i : nat) : option nat := option_map (Nat.add i) (find needle (skipn i s)).
(* while k < n and ord(v[k]) <= 0x20: k += 1 *)
Definition skip_low (v : str) (k : nat) : nat := Nat.add k (List.length (take_while (fun c => c <=? 32) (skipn k v))).
(* css.py:191-194: what may follow the ')' *)
Definition boundary_ok (v : str) (i : nat) : bool :=
  match nth_error v i with None => true | Some c => (c <=? 32) || (c =? 44) || (c =? 47) end.
(* css.py:210-214 *)
Definition needs_escaping (c : N) : bool := (c <=? 32) || (c =? 127) || mem c [39; 34; 40; 41; 92].
Definition url_call (s : str) : str := (u "url('" ++ s ++ u "')")%list.

(* css.py:158-188: the URL in the parentheses and the index of ')', for k just after 'url(' *)
Definition url_argument (v : str) (k : nat) : option (str * nat) :=
  let k := skip_low v k in
  match nth_error v k with
  | None => None
  | Some q =>
    if (q =? 34) || (q =? 39) then
      let start := (k + 1)%nat in
      match find_from [q] v start with
      | None => None
      | Some e =>
        let k := skip_low v (e + 1) in
        match nth_error v k with
        | Some c => if c =? 41 then Some (slice v start e, k) else None
        | None => None
        end
      end
    else
      match find_from [41] v k with
      | None => None
      | Some e =>
        let raw := strip (slice v k e) in
        match raw with
        | [] => None
        | _ => if existsb (fun c => (c <=? 32) || (c =? 127)) raw then None else Some (raw, e)
        end
      end
  end.

(* css.py:116-221 _sanitize_url_function_value.  [san]: _sanitize_url_value_with_rule with the fixed arguments.
   The loop: [out] and [replaced] are out_parts and replaced_any so far; Drop is None.  [fuel]: every iteration moves i forward. *)
Fixpoint url_functions_go (san : str -> outcome) (v low : str) (fuel : nat) (i : nat) (out : str) (replaced : bool) : outcome :=
  match fuel with
  | O => Err
  | S k =>
    match find_from (u "url(") low i with
    | None => let res := (out ++ skipn i v)%list in if replaced then Keep res else Drop
    | Some j =>
      match url_argument v (j + 4) with
      | None => Drop
      | Some (raw, close) =>
        if negb (boundary_ok v (close + 1)) then Drop else
        match san raw with
        | Drop => Drop
        | Err => Err
        | Keep s => if existsb needs_escaping s then Drop
                    else url_functions_go san v low k (close + 1) (out ++ slice v i j ++ url_call s)%list true
        end
      end
    end
  end.
Definition sanitize_url_function_value (san : str -> outcome) (v : str) : outcome :=
  if mem 92 v then Drop
  else if contains (u "/*") v then Drop
  else url_functions_go san v (lower v) (S (List.length (lower v))) 0 [] false.
(* css.py:224-239 _sanitize_css_url_functions *)
Definition sanitize_css_url_functions (py : urllib) (p : url_policy) (tag prop value : str) : outcome :=
  match lookup_css_rule p tag prop with
  | None => Drop
  | Some r => sanitize_url_function_value (fun raw =>
      sanitize_url_value py r raw tag (u "style:" ++ prop)%list (effective_handling p r) (effective_allow_relative p r)
        (effective_proxy p r) (url_filter p)) value
  end.

(* css.py:258-293: one declaration.  Drop: `continue` *)
Definition sanitize_declaration (py : urllib) (allowed : list str) (p : option url_policy) (lower_tag decl : str) : outcome :=
  let d := strip decl in
  match find_char 58 d with
  | None => Drop
  | Some O => Drop
  | Some colon =>
    let prop := lower (strip (firstn colon d)) in
    if negb (valid_property_name prop) then Drop
    else if negb (in_strs prop allowed) then Drop
    else
      let prop_value := strip (skipn (colon + 1) d) in
      match prop_value with
      | [] => Drop
      | _ =>
        if in_strs (lower prop_value) ambient_values then Drop
        else if disallowed_functions prop_value false then
          match p with
          | None => Drop
          | Some p =>
            if disallowed_functions prop_value true then Drop
            else match sanitize_css_url_functions py p lower_tag prop prop_value with
                 | Keep v => Keep (prop ++ u ": " ++ v)%list
                 | x => x
                 end
          end
        else Keep (prop ++ u ": " ++ prop_value)%list
      end
  end.
Fixpoint sanitize_declarations (py : urllib) (allowed : list str) (p : option url_policy) (tag : str) (l : list str) : option (list str) :=
  match l with
  | [] => Some []
  | d :: l' =>
    match sanitize_declaration py allowed p tag d with
    | Err => None
    | Drop => sanitize_declarations py allowed p tag l'
    | Keep s => option_map (cons s) (sanitize_declarations py allowed p tag l')
    end
  end.
(* css.py:242-298 _sanitize_inline_style *)
Definition sanitize_inline_style (py : urllib) (allowed : list str) (value tag : str) (p : option url_policy) : outcome :=
  match allowed, value with
  | [], _ => Drop
  | _, [] => Drop
  | _, _ =>
    match sanitize_declarations py allowed p (lower tag) (split_char 59 value) with
    | None => Err
    | Some [] => Drop
    | Some l => Keep (join (u "; ") l)
    end
  end.
