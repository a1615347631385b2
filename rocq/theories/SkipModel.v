(* How the sanitizing engine drops an svg or math element: it looks for the end of the element in the source.
   Model of src/justhtml/parser/engine.py:3410-3418, 6460-6531.  No proofs in this file. *)
From Coq Require Import NArith List Bool String.
From Verif Require Import Str ScanModel GuardModel.
Import ListNotations.
Open Scope list_scope.
Open Scope N_scope.

(* engine.py:3411-3418.  Full: the element is parsed like any other (-1 in the code); Eof: everything up to the end of the input is dropped;
   At rest: dropped, parsing goes on at rest; OutOfFuel: the model's loop bound, never reached (C74_total). *)
Inductive skipped := Full | Eof | At (rest : str) | OutOfFuel.
(* engine.py:267 _FOREIGN_FULL_PARSE_TAGS *)
Definition full_parse_tags : list str := breakout_names ++ map u ["annotation-xml"; "desc"; "font"; "foreignobject"; "title"]%string.
(* engine.py:203 _TABLE_SCOPED_END_TAGS *)
Definition table_end_tags : list str := map u ["caption"; "table"; "tbody"; "td"; "tfoot"; "th"; "thead"; "tr"]%string.
(* engine.py:78-81 _RCDATA_TAGS, _PLAINTEXT_TAGS, _RAWTEXT_AS_TEXT_TAGS (engine.py:569: without noscript when scripting is off), and the
   drop_content_tags of the default policies (sanitizer/policy.py:176, policy_defaults.py:134) *)
Definition rcdata_tags : list str := map u ["title"; "textarea"]%string.
Definition plaintext_tags : list str := [u "plaintext"].
Definition rawtext_as_text (scripting : bool) : list str := map u ["iframe"; "noembed"; "noframes"; "xmp"]%string ++ (if scripting then [u "noscript"] else []).
Definition drop_content : list str := map u ["script"; "style"]%string.

(* engine.py:56 _TAG_NAME_RE.match: the name and what follows it; the empty name when there is no match *)
Definition name_stop (c : N) : bool := mem c [9; 10; 12; 13; 32; 47; 62].
Definition letter (c : N) : bool := is_alpha_ascii c.
Definition tag_name (s : str) : str * str :=
  match s with
  | c :: _ => if letter c then (take_while (fun c => negb (name_stop c)) s, drop_while (fun c => negb (name_stop c)) s) else ([], s)
  | [] => ([], s)
  end.
(* engine.py:6484: translate or lower *)
Definition fold (strict : bool) (s : str) : str := if strict then alow s else lower s.
(* engine.py:6504-6508 *)
Definition rawtext_end (tag s : str) : option str :=
  option_map (fun p => skipn (snd p) s) (if str_eqb tag (u "script") then find_script_end_tag s else find_rawtext_end_tag tag s).

(* engine.py:6471-6521: p is what follows the less-than sign.  inl: the end; inr: the next depth and position *)
Definition markup (strict scripting : bool) (name : str) (depth : nat) (p : str) : skipped + (nat * str) :=
  if match p with c :: _ => (c =? 33) && ascii_startswith (u "<![cdata[") (60 :: p) | [] => false end then
    match find (u "]]>") (skipn 8 p) with
    | None => inl Eof
    | Some j => inr (depth, skipn (j + 3) (skipn 8 p))
    end
  else
    let '(is_end, p) := match p with c :: t => if c =? 47 then (true, t) else (false, p) | [] => (false, p) end in
    match tag_name p with
    | ([], _) => inr (depth, p)
    | (raw_tag, r) =>
      let tag := fold strict raw_tag in
      let pos := match find_char 62 r with None => [] | Some k => skipn (S k) r end in
      let same := str_eqb tag name in
      if is_end && negb same && (in_strs tag breakout_names || in_strs tag table_end_tags) then inl Full else
      if negb is_end && negb same && in_strs tag full_parse_tags then inl Full else
      if negb is_end && negb same && in_strs tag plaintext_tags then inl Eof else
      if negb is_end && negb same && (in_strs tag rcdata_tags || in_strs tag drop_content || in_strs tag (rawtext_as_text scripting)) then
        match rawtext_end tag pos with None => inl Full | Some rest => inr (depth, rest) end
      else inr ((if same then if is_end then pred depth else S depth else depth), pos)
    end.
(* engine.py:6465-6471: one round of the loop *)
Definition step (strict scripting : bool) (name : str) (depth : nat) (s : str) : skipped + (nat * str) :=
  match find_char 60 s with
  | None => inl Full
  | Some i => markup strict scripting name depth (skipn (S i) s)
  end.
(* engine.py:6464 while pos < end and depth, 6522-6531 *)
Fixpoint skip_go (strict scripting : bool) (name : str) (fuel : nat) (depth : nat) (s : str) : skipped :=
  match fuel with
  | O => OutOfFuel
  | S fuel =>
    match depth with
    | O => if ascii_startswith (u "<frameset") (drop_while (fun c => mem c SPACE) s) then Full else At s
    | S _ =>
      match s with
      | [] => Full
      | _ => match step strict scripting name depth s with inl r => r | inr (d, t) => skip_go strict scripting name fuel d t end
      end
    end
  end.
(* s is what follows the start tag.  Whether the tag was self-closing is not looked at (engine.py:3410-3418). *)
Definition skip_subtree (strict scripting : bool) (name s : str) : skipped := skip_go strict scripting name (S (List.length s)) 1 s.
(* engine.py:3381-3418: the start tag of an svg or math element that the policy drops, and what follows it.  self_closing is known there and not used. *)
Definition drop_foreign (strict scripting : bool) (name : str) (self_closing : bool) (s : str) : skipped := skip_subtree strict scripting name s.
