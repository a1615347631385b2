(* MODEL of parser/scanner.py and of the comment scanner parser/engine.py:2093-2118, 2209-2222, 1719-1724.
   The string is given as the part from the search position on; a position in it is a number of characters from there.  None stands for -1
   (or Python's None).  The bound `end` is the end of the string: engine.py and stream.py pass len(html). *)
From Verif Require Import Str.
Open Scope N_scope.

(* ---------- comments ---------- *)
(* engine.py:2209-2222 _find_comment_end; the find loop is one recursion over the characters *)
Fixpoint find_comment_end (s : str) : option nat :=
  match s with
  | a :: ((b :: t) as t1) =>
    if (a =? 45) && (b =? 45) then
      if starts [62] t then Some O
      else if starts [33; 62] t then Some 1%nat
      else if starts [45; 62] t then Some 1%nat
      else option_map (fun k => S (S k)) (find_comment_end t)
    else option_map S (find_comment_end t1)
  | _ => None
  end.
(* str.removesuffix("-") *)
Definition remove_dash (s : str) : str := if ends [45] s then removelast s else s.
(* engine.py:1720-1723 _append_comment: the data stored.  Not modelled: 1724 _normalize_surrogate_pairs and the XML coercion *)
Definition comment_data (d : str) : str :=
  let d := replace_char 13 [10] (replace [13; 10] [10] d) in replace_char 0 [65533] d.
(* engine.py:2095-2118 what follows <!--: the data of the comment, and the text after it (None: the end of the input was reached) *)
Definition comment (s : str) : str * option str :=
  let w := 45 :: 45 :: s in
  match find_comment_end w with
  | None => (comment_data (remove_dash (remove_dash s)), None)
  | Some close =>
    let comment_end := if str_eqb (slice w (close + 1) (close + 3)) [33; 62] then (close - 1)%nat else close in
    (comment_data (firstn (comment_end - 2) s), Some (skipn (close + 3) w))
  end.

(* ---------- raw text ---------- *)
(* scanner.py:3, 9 *)
Definition SPACE : str := [32; 9; 10; 12; 13].
Definition TAG_END_NAME_STOP : str := (SPACE ++ [47; 62])%list.
(* scanner.py:12-18 ascii_startswith; the needle is ASCII *)
Definition ascii_startswith (needle s : str) : bool :=
  (List.length needle <=? List.length s)%nat
  && let candidate := firstn (List.length needle) s in str_eqb candidate needle || (is_ascii candidate && str_eqb (lower candidate) (lower needle)).
(* scanner.py:21-46 ascii_find; the search for the first character and the loop are one recursion: a place where the first character
   differs in more than case is not a match *)
Fixpoint ascii_find (needle s : str) : option nat :=
  match s with
  | [] => None
  | _ :: t => if (List.length s <? List.length needle)%nat then None else if ascii_startswith needle s then Some O else option_map S (ascii_find needle t)
  end.
(* scanner.py:72-84 find_tag_end *)
Fixpoint find_tag_end (quote : option N) (s : str) : option nat :=
  match s with
  | [] => None
  | ch :: t =>
    match quote with
    | Some q => option_map S (find_tag_end (if ch =? q then None else Some q) t)
    | None => if (ch =? 34) || (ch =? 39) then option_map S (find_tag_end (Some ch) t) else if ch =? 62 then Some O else option_map S (find_tag_end None t)
    end
  end.
(* scanner.py:87-109 find_rawtext_end_tag: the start of the end tag and the position after it.  fuel: turns of the loop; each one moves on
   by at least two characters.  Fuel 0 gives None; the length of s plus one is enough (lemma rawtext_go in ScanFirst) *)
Fixpoint find_rawtext_go (fuel : nat) (needle s : str) : option (nat * nat) :=
  match fuel with
  | O => None
  | S fuel =>
    match ascii_find needle s with
    | None => None
    | Some close =>
      let after_name := (close + List.length needle)%nat in
      let rest := skipn after_name s in
      let again := option_map (fun p => (after_name + fst p, after_name + snd p)%nat) (find_rawtext_go fuel needle rest) in
      match rest with
      | c :: _ => if negb (mem c TAG_END_NAME_STOP) then again
                  else match find_tag_end None rest with None => Some (close, List.length s) | Some e => Some (close, (after_name + e + 1)%nat) end
      | [] => again
      end
    end
  end.
Definition find_rawtext_end_tag (name s : str) : option (nat * nat) := find_rawtext_go (S (List.length s)) (60 :: 47 :: name) s.
(* scanner.py:165-181 find_script_start_marker: `bound` is the position before which the marker must end, s goes on to the end of the text *)
Fixpoint find_script_start_go (fuel : nat) (bound : nat) (s : str) : option nat :=
  match fuel with
  | O => None
  | S fuel =>
    match ascii_find (u "<script") (firstn bound s) with
    | None => None
    | Some start =>
      let after_name := (start + 7)%nat in
      match skipn after_name s with
      | c :: _ => if mem c TAG_END_NAME_STOP then Some start else option_map (fun k => (after_name + k)%nat) (find_script_start_go fuel (bound - after_name) (skipn after_name s))
      | [] => Some start
      end
    end
  end.
Definition find_script_start_marker (bound : nat) (s : str) : option nat := find_script_start_go (S (List.length s)) bound s.
(* scanner.py:112-162 find_script_end_tag.  s is the text from `search` on, off that position.  fuel: turns of the loop *)
Fixpoint find_script_go (fuel : nat) (escaped double_escaped : bool) (off : nat) (s : str) : option (nat * nat) :=
  match fuel with
  | O => None
  | S fuel =>
    let go esc dbl n := find_script_go fuel esc dbl (off + n) (skipn n s) in
    match find_rawtext_end_tag (u "script") s with
    | None => None
    | Some (close, next_pos) =>
      let found := Some (off + close, off + next_pos)%nat in
      let before := firstn close s in
      if negb escaped then
        match find (u "<!--") before with
        | None => found
        | Some comment_start => go true double_escaped (comment_start + 2)%nat
        end
      else
        let script_start := if double_escaped then None else find_script_start_marker close s in
        let comment_end := find (u "-->") before in
        match (match comment_end with
               | Some e => if double_escaped || match script_start with None => true | Some b => (e <? b)%nat end then Some e else None
               | None => None
               end) with
        | Some e => go false false (e + 3)%nat
        | None =>
          match script_start with
          | Some b => go true true (b + 7)%nat
          | None =>
            if double_escaped then
              match ascii_find (u "</script") (slice s (close + 8) next_pos) with
              | Some later_end =>
                match skipn (close + 8 + later_end + 8) s with
                | c :: _ => if mem c TAG_END_NAME_STOP then go true false (close + 8)%nat else go true false next_pos
                | [] => go true false (close + 8)%nat
                end
              | None => go true false next_pos
              end
            else found
          end
        end
    end
  end.
Definition find_script_end_tag (s : str) : option (nat * nat) := find_script_go (S (List.length s)) false false O s.
