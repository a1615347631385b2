(* SPECIFICATION (independent of /repo): CSS Syntax Module Level 3, section 4 (tokenization), and the names of the
   declarations of a style attribute (section 5).  The input preprocessing of section 3.3 is folded into the character classes:
   CR, FF and LF are newlines and U+0000 counts as U+FFFD, a name code point.  Token values other than names and strings
   (numbers, flags) are left out. *)
From Verif Require Import Str.
Open Scope N_scope.

Inductive ctok :=
| CWs | CIdent (n : str) | CFun (n : str) | CAt (n : str) | CHash (n : str) | CStr (s : str) | CBadStr
| CUrl (s : str) | CBadUrl | CNum | CDim (unit : str) | CPercent | CCdo | CCdc | CColon | CSemi | CDelim (c : N).

Definition css_newline (c : N) : bool := (c =? 10) || (c =? 13) || (c =? 12).
Definition css_ws (c : N) : bool := css_newline c || (c =? 9) || (c =? 32).
Definition ident_start (c : N) : bool := is_alpha_ascii c || (128 <=? c) || (c =? 95) || (c =? 0).
Definition ident_char (c : N) : bool := ident_start c || is_digit_ascii c || (c =? 45).

(* 4.3.8 two code points are a valid escape (the end of input is not a newline) *)
Definition valid_escape (s : str) : bool :=
  match s with
  | a :: b :: _ => (a =? 92) && negb (css_newline b)
  | [a] => a =? 92
  | [] => false
  end.
(* 4.3.9 three code points would start an ident sequence *)
Definition would_start_ident (s : str) : bool :=
  match s with
  | [] => false
  | c :: t => if c =? 45 then match t with
                              | d :: _ => ident_start d || (d =? 45) || valid_escape t
                              | [] => false
                              end
              else ident_start c || valid_escape s
  end.
(* 4.3.10 three code points would start a number *)
Definition digit_first (s : str) : bool := match s with c :: _ => is_digit_ascii c | [] => false end.
Definition dot_digit (s : str) : bool := match s with c :: t => (c =? 46) && digit_first t | [] => false end.
Definition would_start_number (s : str) : bool :=
  match s with
  | [] => false
  | c :: t => if (c =? 43) || (c =? 45) then digit_first t || dot_digit t else digit_first s || dot_digit s
  end.

(* 4.3.7 consume an escaped code point (after the backslash): value and rest *)
Definition hexval (c : N) : N := if is_digit_ascii c then c - 48 else alow_c c - 87.
Definition skip_one_ws (s : str) : str :=
  match s with
  | a :: t => if (a =? 13) && (match t with b :: _ => b =? 10 | [] => false end) then tl t else if css_ws a then t else s
  | [] => []
  end.
Definition consume_escape (s : str) : N * str :=
  match s with
  | [] => (65533, [])
  | c :: t => if is_hex_ascii c then
                let ds := take_while is_hex_ascii (firstn 6 s) in
                let v := digits_value 16 (map hexval ds) in
                (if (v =? 0) || ((55296 <=? v) && (v <=? 57343)) || (1114111 <? v) then 65533 else v,
                 skip_one_ws (skipn (List.length ds) s))
              else (c, t)
  end.

(* 4.3.11 consume an ident sequence *)
Fixpoint consume_ident (fuel : nat) (s : str) : str * str :=
  match fuel with O => ([], s) | S k =>
  match s with
  | [] => ([], [])
  | c :: t => if ident_char c then let (n, r) := consume_ident k t in (c :: n, r)
              else if valid_escape s then
                let (e, r) := consume_escape t in let (n, r') := consume_ident k r in (e :: n, r')
              else ([], s)
  end end.
Definition ident_seq (s : str) : str * str := consume_ident (S (List.length s)) s.

(* 4.3.5 consume a string token ending with [q] (after the opening quote) *)
Fixpoint consume_string (fuel : nat) (q : N) (s : str) : ctok * str :=
  match fuel with O => (CBadStr, s) | S k =>
  match s with
  | [] => (CStr [], [])
  | c :: t =>
    if c =? q then (CStr [], t)
    else if css_newline c then (CBadStr, s)
    else
      let add e p := match p with (CStr w, r) => (CStr (e ++ w)%list, r) | x => x end in
      if c =? 92 then
        match t with
        | [] => (CStr [], [])
        | d :: t' => if css_newline d then consume_string k q (skip_one_ws t)
                     else let (e, r) := consume_escape t in add [e] (consume_string k q r)
        end
      else add [c] (consume_string k q t)
  end end.

(* 4.3.6 consume a url token, 4.3.14 the remnants of a bad url *)
Definition non_printable (c : N) : bool := (c <=? 8) || (c =? 11) || ((14 <=? c) && (c <=? 31)) || (c =? 127).
Fixpoint bad_url_remnants (fuel : nat) (s : str) : str :=
  match fuel with O => s | S k =>
  match s with
  | [] => []
  | c :: t => if c =? 41 then t
              else if valid_escape s then bad_url_remnants k (snd (consume_escape t))
              else bad_url_remnants k t
  end end.
Fixpoint url_body (fuel : nat) (s : str) : ctok * str :=
  match fuel with O => (CBadUrl, s) | S k =>
  let bad := (CBadUrl, bad_url_remnants fuel s) in
  let add e p := match p with (CUrl w, r) => (CUrl (e :: w)%list, r) | x => x end in
  match s with
  | [] => (CUrl [], [])
  | c :: t =>
    if c =? 41 then (CUrl [], t)
    else if css_ws c then
      match drop_while css_ws t with
      | [] => (CUrl [], [])
      | d :: t' => if d =? 41 then (CUrl [], t') else bad
      end
    else if (c =? 34) || (c =? 39) || (c =? 40) || (negb (c =? 0) && non_printable c) then bad
    else if c =? 92 then
      if valid_escape s then let (e, r) := consume_escape t in add e (url_body k r) else bad
    else add c (url_body k t)
  end end.
Definition consume_url (s : str) : ctok * str := url_body (S (List.length s)) (drop_while css_ws s).

(* 4.3.4 consume an ident-like token *)
Definition quote_next (s : str) : bool := match s with c :: _ => (c =? 34) || (c =? 39) | [] => false end.
Definition ident_like (s : str) : ctok * str :=
  let (n, r) := ident_seq s in
  match r with
  | c :: t => if c =? 40 then
                if str_eqb (alow n) (u "url") && negb (quote_next (drop_while css_ws t)) then consume_url t
                else (CFun n, t)
              else (CIdent n, r)
  | [] => (CIdent n, r)
  end.

(* 4.3.12 consume a number: the rest after it; 4.3.3 consume a numeric token *)
Definition skip_digits (s : str) : str := drop_while is_digit_ascii s.
Definition skip_exponent (s : str) : str :=
  match s with
  | c :: t => if (c =? 69) || (c =? 101) then
                if digit_first t then skip_digits t
                else match t with
                     | d :: t' => if ((d =? 43) || (d =? 45)) && digit_first t' then skip_digits t' else s
                     | [] => s
                     end
              else s
  | [] => s
  end.
Definition skip_number (s : str) : str :=
  let s1 := match s with c :: t => if (c =? 43) || (c =? 45) then t else s | [] => s end in
  let s2 := skip_digits s1 in
  let s3 := if dot_digit s2 then skip_digits (tl s2) else s2 in
  skip_exponent s3.
Definition numeric (s : str) : ctok * str :=
  let r := skip_number s in
  if would_start_ident r then let (n, r') := ident_seq r in (CDim n, r')
  else match r with
       | c :: t => if c =? 37 then (CPercent, t) else (CNum, r)
       | [] => (CNum, r)
       end.

(* 4.3.2 consume comments: the input after one comment that starts here *)
Definition after_comment (s : str) : str :=
  match find (u "*/") s with Some i => skipn (i + 2) s | None => [] end.

(* 4.3.1 consume a token; [None]: a comment, no token *)
Definition consume_token (c : N) (t : str) : option ctok * str :=
  let s := c :: t in
  let some p := (Some (fst p), snd p) : option ctok * str in
  if starts (u "/*") s then (None, after_comment (tl t))
  else if css_ws c then (Some CWs, drop_while css_ws t)
  else if (c =? 34) || (c =? 39) then some (consume_string (S (List.length t)) c t)
  else if c =? 35 then
    if match t with d :: _ => ident_char d || valid_escape t | [] => false end
    then let (n, r) := ident_seq t in (Some (CHash n), r) else (Some (CDelim c), t)
  else if (c =? 43) || (c =? 46) then if would_start_number s then some (numeric s) else (Some (CDelim c), t)
  else if c =? 45 then
    if would_start_number s then some (numeric s)
    else if starts (u "-->") s then (Some CCdc, skipn 2 t)
    else if would_start_ident s then some (ident_like s)
    else (Some (CDelim c), t)
  else if c =? 58 then (Some CColon, t)
  else if c =? 59 then (Some CSemi, t)
  else if c =? 60 then if starts (u "<!--") s then (Some CCdo, skipn 3 t) else (Some (CDelim c), t)
  else if c =? 64 then if would_start_ident t then let (n, r) := ident_seq t in (Some (CAt n), r) else (Some (CDelim c), t)
  else if c =? 92 then if valid_escape s then some (ident_like s) else (Some (CDelim c), t)
  else if is_digit_ascii c then some (numeric s)
  else if ident_start c then some (ident_like s)
  else (Some (CDelim c), t).
Fixpoint tokens_go (fuel : nat) (s : str) : list ctok :=
  match fuel with O => [] | S k =>
  match s with
  | [] => []
  | c :: t => let (o, r) := consume_token c t in
              match o with Some tk => tk :: tokens_go k r | None => tokens_go k r end
  end end.
Definition css_tokens (s : str) : list ctok := tokens_go (List.length s) s.

(* 5.4.4: a declaration is an ident token, any whitespace and a colon; it can only begin at the start of the style
   attribute or after a semicolon (and whitespace).  Names of everything that is shaped like that. *)
Fixpoint skip_ws_tok (l : list ctok) : list ctok := match l with CWs :: t => skip_ws_tok t | _ => l end.
Definition decl_here (l : list ctok) : list str :=
  match skip_ws_tok l with
  | CIdent n :: t => match skip_ws_tok t with CColon :: _ => [alow n] | _ => [] end
  | _ => []
  end.
Fixpoint decls_after (l : list ctok) : list str :=
  match l with
  | [] => []
  | CSemi :: t => (decl_here t ++ decls_after t)%list
  | _ :: t => decls_after t
  end.
Definition declared (style : str) : list str :=
  let l := css_tokens style in (decl_here l ++ decls_after l)%list.

(* functions that can load a resource or run code: src(), image(), image-set(), expression(), var() (whose value may come
   from a rule elsewhere), also with any prefix such as -webkit- *)
Definition dangerous_suffixes : list str := [u "src"; u "image"; u "image-set"; u "expression"; u "var"].
Definition dangerous_function (n : str) : Prop := exists d, In d dangerous_suffixes /\ exists pre, alow n = (pre ++ d)%list.
