(* MODEL of serializer/markdown.py (all of it).  None: an exception (ValueError of to_html on an invalid name, UnicodeEncodeError of quote on a
   lone surrogate).
   Simplifications: the explicit stack of tasks of _to_markdown_walk is a recursion that does the same steps in the same order; preserve_whitespace
   is left out (it is False at the root and could become True only under textarea, script and style, which are handled before);
   an element whose name is #text, #comment or !doctype is not considered. *)
From Verif Require Import Str SerializerModel.
Open Scope list_scope. Open Scope N_scope.

(* markdown.py:15-33 _markdown_escape_text *)
Definition escape_char (ch : N) : str :=
  if ch =? 38 then u "&amp;" else if ch =? 60 then u "&lt;" else if mem ch (u "\`*_[]") then [92; ch] else [ch].
Definition escape_text (s : str) : str := flat_map escape_char s.

(* str.splitlines(): line boundaries of Python *)
Definition line_break (c : N) : bool := mem c [10; 11; 12; 13; 28; 29; 30; 133; 8232; 8233].
Fixpoint splitlines_go (acc : str) (s : str) : list str :=
  match s with
  | [] => match acc with [] => [] | _ => [rev acc] end
  | c :: t =>
    if (c =? 13) && starts [10] t then rev acc :: match t with _ :: t' => splitlines_go [] t' | [] => [] end
    else if line_break c then rev acc :: splitlines_go [] t else splitlines_go (c :: acc) t
  end.
Definition splitlines (s : str) : list str := splitlines_go [] s.

(* markdown.py:55-67 _markdown_backtick_fence *)
Fixpoint longest_run (longest run : nat) (s : str) : nat :=
  match s with
  | [] => longest
  | ch :: t => if ch =? 96 then longest_run (if (longest <? S run)%nat then S run else longest) (S run) t else longest_run longest O t
  end.
Definition backtick_fence (s : str) (minimum : nat) : str := repeat 96 (Nat.max minimum (longest_run O O s + 1)).
(* markdown.py:35-53 _markdown_code_span *)
Definition code_span (s : str) : str :=
  match s with
  | [] => []
  | _ =>
    let s := if mem 10 s || mem 13 s then join [32] (splitlines s) else s in
    let fence := backtick_fence s 1 in
    if starts [96] s || ends [96] s then fence ++ [32] ++ s ++ [32] ++ fence else fence ++ s ++ fence
  end.

(* markdown.py:70-83 _markdown_thematic_or_setext_line *)
Definition sp_tab (c : N) : bool := mem c [32; 9].
Definition thematic_line (s : str) (marker : N) (minimum : nat) : bool :=
  match rstrip_by sp_tab s with
  | [] => false
  | stripped => forallb (fun c => sp_tab c || (c =? marker)) stripped && (minimum <=? List.length (filter (fun c => negb (sp_tab c)) stripped))%nat
  end.
(* markdown.py:86-135 _markdown_escape_line_start: the replacement and how many characters it stands for *)
Definition next_blank (t : str) : bool := match t with c :: _ => sp_tab c | [] => false end.
Definition escape_line_start (s : str) : option (str * nat) :=
  match s with
  | [] => None
  | first :: t =>
    if first =? 35 then if (match t with [] => true | _ => false end) || next_blank t then Some ([92; 35], 1%nat) else None
    else if first =? 62 then Some ([92; 62], 1%nat)
    else if first =? 45 then if next_blank t || thematic_line s 45 3 then Some ([92; 45], 1%nat) else None
    else if first =? 43 then if next_blank t then Some ([92; 43], 1%nat) else None
    else if first =? 61 then if thematic_line s 61 1 then Some ([92; 61], 1%nat) else None
    else if first =? 126 then if starts (u "~~~") s then Some ([92; 126], 1%nat) else None
    else if first =? 96 then if starts (u "```") s then Some ([92; 96], 1%nat) else None
    else if is_digit first then
      match drop_while is_digit t with
      | p :: q => if mem p (u ".)") && next_blank q then Some (first :: take_while is_digit t ++ [92; p], (List.length (take_while is_digit t) + 2)%nat) else None
      | [] => None
      end
    else None
  end.

(* urllib.parse.quote with the safe argument of markdown.py:157 *)
Definition md_safe (b : N) : bool := is_alnum_ascii b || mem b (u "_.-~") || mem b (u ":/?#[]@!$&'*+,;=%-._~()").
Definition md_quote_byte (b : N) : str := if md_safe b then [b] else [37; hex_upper (b / 16); hex_upper (b mod 16)].
(* markdown.py:138-160 _markdown_link_destination *)
Definition link_destination (url : str) : option str :=
  let d := strip url in
  match d with
  | [] => Some []
  | _ =>
    if existsb (fun ch => mem ch d) (u " " ++ [9; 10; 13] ++ u "()<>")
    then option_map (fun q => [60] ++ flat_map md_quote_byte q ++ [62]) (utf8_encode d)
    else Some d
  end.

(* markdown.py:166-183 _MarkdownBuilder; buf: the segments, the last one first *)
Record builder := Builder { quote_depth : nat; buf : list str; leading_space : bool; newline_count : nat; pending_space : bool }.
Definition new_builder (depth : nat) : builder := Builder depth [] false O false.
Definition empty_buf (b : builder) : bool := match buf b with [] => true | _ => false end.
(* markdown.py:185-191 _rstrip_last_segment *)
Definition rstrip_last (l : list str) : list str := match l with [] => [] | x :: l => rstrip_by sp_tab x :: l end.
(* markdown.py:193-200 newline(1) *)
Definition newline (b : builder) : builder :=
  Builder (quote_depth b) ([10] :: rstrip_last (buf b)) (leading_space b) (if (newline_count b <? 2)%nat then S (newline_count b) else newline_count b) false.
(* markdown.py:202-204 ensure_newlines; each turn adds one to the count, so the loop runs count - newline_count times (count is 0 or 2) *)
Definition ensure_newlines (count : nat) (b : builder) : builder := Nat.iter (count - newline_count b) newline b.
(* markdown.py: self._buf[-1].endswith((" ", "\t")), self._buf[-1].endswith("`") *)
Definition last_blank (l : list str) : bool := match l with [] => false | x :: _ => match rev x with c :: _ => sp_tab c | [] => false end end.
Definition last_backtick (l : list str) : bool := match l with [] => false | x :: _ => match rev x with c :: _ => c =? 96 | [] => false end end.
Definition html_space (c : N) : bool := mem c [9; 10; 12; 13; 32].
(* markdown.py:206-240 raw *)
Definition raw (s : str) (b : builder) : builder :=
  match s with
  | [] => b
  | first :: _ =>
    let buf1 := if pending_space b && negb (html_space first) && negb (empty_buf b) && (newline_count b =? 0)%nat && negb (last_blank (buf b)) then [32] :: buf b else buf b in
    let buf2 := if (newline_count b =? 0)%nat && last_backtick buf1 && (first =? 96) then [32] :: buf1 else buf1 in
    Builder (quote_depth b) (s :: buf2) (leading_space b) (if mem 10 s then Nat.min 2 (List.length (take_while (fun c => c =? 10) (rev s))) else O) false
  end.
(* markdown.py:242-277 text; skip: characters already consumed by escape_line_start *)
Fixpoint text_go (skip : nat) (s : str) (b : builder) : builder :=
  match s with
  | [] => b
  | ch :: t =>
    match skip with
    | S k => text_go k t b
    | O =>
      if html_space ch then text_go O t (Builder (quote_depth b) (buf b) (leading_space b || empty_buf b) (newline_count b) true)
      else
        let buf1 := if pending_space b && negb (empty_buf b) && (newline_count b =? 0)%nat && negb (last_blank (buf b)) then [32] :: buf b else buf b in
        let plain := text_go O t (Builder (quote_depth b) ([ch] :: buf1) (leading_space b) O false) in
        if (match buf1 with [] => true | _ => false end) || (0 <? newline_count b)%nat then
          match escape_line_start s with
          | Some (replacement, consumed) => text_go (consumed - 1) t (Builder (quote_depth b) (replacement :: buf1) (leading_space b) O false)
          | None => plain
          end
        else plain
    end
  end.
Definition text (s : str) (b : builder) : builder := text_go O s b.
(* markdown.py:279-281 finish *)
Definition finish (b : builder) : str := strip_by (fun c => mem c [32; 9; 10]) (List.concat (rev (buf b))).

(* markdown.py:284-309 *)
Definition block_elements : list str := map u ["p"; "div"; "section"; "article"; "header"; "footer"; "main"; "nav"; "aside"; "blockquote"; "pre"; "ul"; "ol"; "li"; "hr"; "h1"; "h2"; "h3"; "h4"; "h5"; "h6"; "table"]%string.
(* markdown.py:162 *)
Definition max_quote_depth : nat := 64.
(* dom/__init__.py:12-37 _to_text_collect with strip=False, and join with "": the text of the node and its descendants (template contents last) *)
Fixpoint node_text (n : node) : str :=
  match n with
  | NText d => d
  | NDocument cs => flat_map node_text cs
  | NElem name ns _ cs tc => flat_map node_text cs ++ match tc with Some l => flat_map node_text l | None => [] end
  | _ => []
  end.
(* str(index) *)
Fixpoint uint_str (d : Decimal.uint) : str :=
  match d with
  | Decimal.Nil => []
  | Decimal.D0 d => 48 :: uint_str d | Decimal.D1 d => 49 :: uint_str d | Decimal.D2 d => 50 :: uint_str d | Decimal.D3 d => 51 :: uint_str d | Decimal.D4 d => 52 :: uint_str d
  | Decimal.D5 d => 53 :: uint_str d | Decimal.D6 d => 54 :: uint_str d | Decimal.D7 d => 55 :: uint_str d | Decimal.D8 d => 56 :: uint_str d | Decimal.D9 d => 57 :: uint_str d
  end.
Definition index_str (n : nat) : str := uint_str (Nat.to_uint n).
Definition heading (tag : str) : option nat := assoc tag [(u "h1", 1%nat); (u "h2", 2%nat); (u "h3", 3%nat); (u "h4", 4%nat); (u "h5", 5%nat); (u "h6", 6%nat)].
(* attrs["href"], None and a missing attribute are "" *)
Definition href_of (attrs : list (str * option str)) : str := match assoc (u "href") attrs with Some (Some v) => v | _ => [] end.
Definition html_of (n : node) : option str := match to_html_compact n None with Ok h => Some h | _ => None end.
Definition bind {A B} (x : option A) (f : A -> option B) : option B := match x with None => None | Some a => f a end.
Notation "'do' x <- e ; f" := (bind e (fun x => f)) (at level 200, x name, e at level 100, f at level 200).
Definition blank_first (b : builder) : builder := ensure_newlines (if empty_buf b then 0 else 2) b.
(* markdown.py:534-545 after_blockquote *)
Fixpoint quote_lines (first : bool) (lines : list str) (b : builder) : builder :=
  match lines with
  | [] => b
  | line :: lines => quote_lines false lines (raw line (raw (u "> ") (if first then b else newline b)))
  end.
Definition after_blockquote (parent inner : builder) : builder :=
  let parent := blank_first parent in
  ensure_newlines 2 (match finish inner with [] => parent | t => quote_lines true (split_char 10 t) parent end).
Definition spaced (flag : bool) (b : builder) : builder := if flag then text [32] b else b.
(* markdown.py:575-590 after_marker *)
Definition after_marker (parent inner : builder) (marker : str) : builder :=
  let parent := spaced (leading_space inner) parent in
  match finish inner with
  | [] => spaced (pending_space inner) parent
  | content =>
    if mem 10 content then raw content (blank_first parent)
    else spaced (pending_space inner) (raw marker (raw content (raw marker parent)))
  end.
(* markdown.py:592-606 after_link *)
Definition after_link (parent inner : builder) (href : str) : option builder :=
  let parent := raw (u "]") (raw (finish inner) (raw (u "[") (spaced (leading_space inner) parent))) in
  do parent <- match href with
               | [] => Some parent
               | _ => do d <- link_destination href; Some (raw (u ")") (raw d (raw (u "(") parent)))
               end;
  Some (spaced (pending_space inner) parent).

(* markdown.py:312-614 _to_markdown_walk.  passthrough: html_passthrough; depth: list_depth; inl: in_link *)
Fixpoint walk (passthrough : bool) (n : node) (depth : nat) (inl : bool) (b : builder) {struct n} : option builder :=
  let walk_all := fix walk_all (depth : nat) (inl : bool) (l : list node) (b : builder) {struct l} : option builder :=
    match l with [] => Some b | c :: l => do b <- walk passthrough c depth inl b; walk_all depth inl l b end in
  match n with
  | NText d => Some (text (escape_text d) b)
  | NComment _ | NPI _ | NDoctype _ => Some b
  | NDocument cs => walk_all depth inl cs b
  | NElem name ns attrs cs tc =>
    if str_eqb name (u "br") then Some (if inl then text [32] b else newline b)
    else if starts [35] name then walk_all depth inl cs b
    else
      let tag := lower name in
      let open b := if inl then b else blank_first b in
      let close b := if inl then text [32] b else ensure_newlines 2 b in
      if in_strs tag [u "head"; u "title"] then Some b
      else if str_eqb tag (u "img") then do h <- html_of n; Some (raw h b)
      else if in_strs tag [u "table"; u "script"; u "style"; u "textarea"] then
        do b <- (if str_eqb tag (u "table") || passthrough then do h <- html_of n; Some (raw h (open b)) else Some (open b));
        Some (if inl then b else ensure_newlines 2 b)
      else match heading tag with
      | Some level =>
        do b <- walk_all depth inl cs (if inl then b else raw [32] (raw (repeat 35 level) (blank_first b)));
        Some (if inl then b else ensure_newlines 2 b)
      | None =>
      if str_eqb tag (u "hr") then Some (if inl then b else ensure_newlines 2 (raw (u "---") (blank_first b)))
      else if str_eqb tag (u "pre") then
        let code := node_text n in
        if inl then Some (raw (code_span code) b)
        else
          let fence := backtick_fence code 3 in
          let b := newline (raw fence (blank_first b)) in
          let b := match code with [] => b | _ => newline (raw (rstrip_by (fun c => c =? 10) code) b) end in
          Some (ensure_newlines 2 (raw fence b))
      else if str_eqb tag (u "code") then Some (raw (code_span (node_text n)) b)
      else if str_eqb tag (u "p") then do b <- walk_all depth inl cs (open b); Some (close b)
      else if str_eqb tag (u "blockquote") then
        if inl then walk_all depth inl cs b
        else if (quote_depth b <? max_quote_depth)%nat then
          do inner <- walk_all depth inl cs (new_builder (S (quote_depth b))); Some (after_blockquote b inner)
        else walk_all depth inl cs b
      else if in_strs tag [u "ul"; u "ol"] then
        if inl then
          (fix items (l : list node) (b : builder) {struct l} : option builder :=
             match l with
             | [] => Some b
             | NElem nm _ _ ics _ :: l => if str_eqb (lower nm) (u "li") then do b <- walk_all (S depth) true ics (raw [32] b); items l b else items l b
             | _ :: l => items l b
             end) cs b
        else
          do b <- (fix items (index : nat) (l : list node) (b : builder) {struct l} : option builder :=
             match l with
             | [] => Some b
             | NElem nm _ _ ics _ :: l =>
               if str_eqb (lower nm) (u "li") then
                 let b := match index with 1%nat => b | _ => newline b end in
                 let b := raw (List.concat (repeat (u "  ") depth)) b in
                 let b := raw (if str_eqb tag (u "ol") then index_str index ++ u ". " else u "- ") b in
                 do b <- walk_all (S depth) false ics b; items (S index) l b
               else items index l b
             | _ :: l => items index l b
             end) 1%nat cs (blank_first b);
          Some (ensure_newlines 2 b)
      else if in_strs tag [u "em"; u "i"] then do inner <- walk_all depth inl cs (new_builder (quote_depth b)); Some (after_marker b inner (u "*"))
      else if in_strs tag [u "strong"; u "b"] then do inner <- walk_all depth inl cs (new_builder (quote_depth b)); Some (after_marker b inner (u "**"))
      else if str_eqb tag (u "a") then do inner <- walk_all depth true cs (new_builder (quote_depth b)); after_link b inner (href_of attrs)
      else
        let block := in_strs tag block_elements in
        do b <- walk_all depth inl cs (if block then open b else b);
        do b <- match tc with Some l => walk_all depth inl l b | None => Some b end;
        Some (if block then close b else b)
      end
  end.
(* markdown.py:617-626 to_markdown *)
Definition to_markdown (passthrough : bool) (n : node) : option str := option_map finish (walk passthrough n O false (new_builder O)).
