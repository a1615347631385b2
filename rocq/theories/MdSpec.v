(* SPECIFICATION: the parts of CommonMark 0.31 the Markdown output is read with. *)
From Verif Require Import Str.
Open Scope list_scope. Open Scope N_scope.

(* 2.1: ASCII punctuation; lines end with LF, CR or CR LF *)
Definition ascii_punctuation (c : N) : bool := ((33 <=? c) && (c <=? 47)) || ((58 <=? c) && (c <=? 64)) || ((91 <=? c) && (c <=? 96)) || ((123 <=? c) && (c <=? 126)).
Fixpoint md_lines_go (acc s : str) : list str :=
  match s with
  | [] => match acc with [] => [] | _ => [rev acc] end
  | c :: t =>
    if c =? 10 then rev acc :: md_lines_go [] t
    else if c =? 13 then rev acc :: match t with d :: t' => if d =? 10 then md_lines_go [] t' else md_lines_go [] t | [] => [] end
    else md_lines_go (c :: acc) t
  end.
Definition md_lines (s : str) : list str := md_lines_go [] s.

(* 2.4, 2.5, 6: inline source that is plain text only, and the text it is displayed as: a backslash before ASCII punctuation stands for the
   punctuation, &amp; and &lt; for & and <; the characters that can begin a code span, emphasis, a link, raw HTML or an entity do not occur otherwise *)
(* the characters that are escaped with a backslash: ASCII punctuation, but not < and &, which have references of their own *)
Definition escapable (c : N) : bool := ascii_punctuation c && negb (mem c (u "<&")).
Definition inline_active : str := u "\`*_[]<&" ++ [10; 13].
Inductive displays : str -> str -> Prop :=
| DNil : displays [] []
| DChar c s t : ~ In c inline_active -> displays s t -> displays (c :: s) (c :: t)
| DEscaped c s t : escapable c = true -> displays s t -> displays (92 :: c :: s) (c :: t)
| DAmp s t : displays s t -> displays (u "&amp;" ++ s) (38 :: t)
| DLt s t : displays s t -> displays (u "&lt;" ++ s) (60 :: t).

(* 6.1 code spans: a backtick string, up to the next backtick string of the same length.  Line endings are spaces; one space is removed from both
   ends if there is one at both and the content is not only spaces *)
Definition code_content (s : str) : str :=
  if starts [32] s && ends [32] s && existsb (fun c => negb (c =? 32)) s then removelast (tl s) else s.
Definition code_span_at (src inner rest : str) : Prop := exists n content,
  (1 <= n)%nat /\ src = repeat 96 n ++ content ++ repeat 96 n ++ rest /\
  (* the two fences are whole backtick strings *)
  starts [96] content = false /\ ends [96] content = false /\ starts [96] rest = false /\ content <> [] /\
  (* no other backtick string of that length comes first *)
  (forall p q, content = p ++ repeat 96 n ++ q -> ends [96] p = true \/ starts [96] q = true) /\
  (* it holds no line ending: nothing to replace, and no block can end inside *)
  ~ In 10 content /\ ~ In 13 content /\ inner = code_content content.

(* 4.5 fenced code blocks: an opening fence of n >= 3 backticks; the closing fence has at least as many, is indented by at most three spaces and
   followed only by spaces and tabs *)
Definition closing_fence (n : nat) (line : str) : Prop := exists i m b, (i <= 3)%nat /\ (n <= m)%nat /\ line = repeat 32 i ++ repeat 96 m ++ b /\ forall c, In c b -> c = 32 \/ c = 9.
Definition fenced_block (src : str) (content : list str) : Prop := exists n,
  (3 <= n)%nat /\ md_lines src = repeat 96 n :: content ++ [repeat 96 n] /\ forall line, In line content -> ~ closing_fence n line.

(* 6.3 link destinations: <...> without line endings and unescaped < >, or characters that are not controls or spaces, with parentheses in pairs *)
Definition control_or_space (c : N) : bool := (c <=? 32) || (c =? 127).
Fixpoint angle_go (s : str) : option (str * str) :=
  match s with
  | [] => None
  | c :: t =>
    if c =? 62 then Some ([], t)
    else if (c =? 60) || (c =? 10) || (c =? 13) then None
    else if c =? 92 then
      match t with
      | p :: t' => if ascii_punctuation p then option_map (fun x => (c :: p :: fst x, snd x)) (angle_go t') else option_map (fun x => (c :: fst x, snd x)) (angle_go t)
      | [] => None
      end
    else option_map (fun x => (c :: fst x, snd x)) (angle_go t)
  end.
Fixpoint bare_go (depth : nat) (s : str) : str * str :=
  match s with
  | [] => ([], [])
  | c :: t =>
    let more (d : nat) := let x := bare_go d t in (c :: fst x, snd x) in
    if control_or_space c then ([], s)
    else if c =? 92 then
      match t with
      | p :: t' => if ascii_punctuation p then let x := bare_go depth t' in (c :: p :: fst x, snd x) else more depth
      | [] => more depth
      end
    else if c =? 40 then more (S depth)
    else if c =? 41 then match depth with O => ([], s) | S d => more d end
    else more depth
  end.
(* the destination at the start of s (as written) and what follows it *)
Definition destination (s : str) : option (str * str) :=
  match s with
  | c :: t => if c =? 60 then angle_go t else match bare_go O s with ([], _) => None | x => Some x end
  | [] => None
  end.
(* 2.5: decimal character references in a destination are replaced (the part of 2.5 that is used here) *)
Fixpoint number (acc : N) (s : str) : option (N * str) :=
  match s with
  | c :: t => if (48 <=? c) && (c <=? 57) then number (10 * acc + (c - 48)) t else if c =? 59 then Some (acc, t) else None
  | [] => None
  end.
Fixpoint dereference (fuel : nat) (s : str) : str :=
  match fuel with
  | O => s
  | S fuel =>
    match s with
    | [] => []
    | c :: t =>
      if starts (u "&#") s then match number 0 (tl t) with Some (k, r) => k :: dereference fuel r | None => c :: dereference fuel t end
      else c :: dereference fuel t
    end
  end.

(* 2.4, 2.5, 6.1, 6.3: how the characters that can begin inline constructs may occur in a source.  Read from left to right it consists of plain
   characters, escapes, code spans closed by their own fence, and links [text](destination).  A link text is on one line, a destination holds no
   white space.  (Emphasis characters and block starts are plain characters here; so is the exclamation mark) *)
Definition structural : str := u "\`<&[]" ++ [13].
Inductive link_tail : str -> Prop :=
| LT_none : link_tail []
| LT_bare d : (forall c, In c d -> ~ In c (u " ()<>" ++ [9; 10; 13])) -> link_tail (40 :: d ++ [41])
| LT_angle d : (forall c, In c d -> ~ In c (u " <>" ++ [9; 10; 13])) -> link_tail (40 :: 60 :: d ++ [62; 41]).
Inductive markup : str -> Prop :=
| MNil : markup []
| MChar c s : ~ In c structural -> markup s -> markup (c :: s)
| MEscaped c s : escapable c = true -> markup s -> markup (92 :: c :: s)
| MAmp s : markup s -> markup (u "&amp;" ++ s)
| MLt s : markup s -> markup (u "&lt;" ++ s)
| MCode src inner s : code_span_at src inner s -> markup s -> markup src
| MLink t d s : markup t -> ~ In 10 t -> link_tail d -> markup s -> markup (91 :: t ++ 93 :: d ++ s).

(* 4.2: an ATX heading: one to six # and then a space, a tab or the end of the line *)
Definition atx_heading (line : str) : bool :=
  let n := List.length (take_while (fun c => c =? 35) line) in
  (1 <=? n)%nat && (n <=? 6)%nat && match drop_while (fun c => c =? 35) line with [] => true | c :: _ => (c =? 32) || (c =? 9) end.
(* 4.7: a link reference definition [label]: destination on one line; a later [label] is a link to the destination *)
Definition reference_definition (line : str) : option (str * str) :=
  if starts (u "[") line then
    let t := tl line in
    let label := take_while (fun c => negb (mem c (u "\[]"))) t in
    match drop_while (fun c => negb (mem c (u "\[]"))) t with
    | 93 :: 58 :: r =>
      if existsb (fun c => negb (mem c [32; 9])) label then
        match destination (drop_while (fun c => mem c [32; 9]) r) with Some (d, []) => Some (label, d) | _ => None end
      else None
    | _ => None
    end
  else None.
