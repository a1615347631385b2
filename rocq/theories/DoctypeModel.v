(* MODEL of the doctype: core/doctype.py and parser/engine.py _parse_doctype *)
From Verif Require Import Str LinkModel.
Open Scope N_scope.

(* core/types.py Doctype *)
Record doctype := { d_name : option str; d_public : option str; d_system : option str; d_force : bool }.
Inductive quirks := NoQuirks | LimitedQuirks | Quirks.
(* core/constants.py:113-187 *)
Definition quirky_public_prefixes : list str :=
  [u "-//advasoft ltd//dtd html 3.0 aswedit + extensions//";
   u "-//as//dtd html 3.0 aswedit + extensions//";
   u "-//ietf//dtd html 2.0 level 1//";
   u "-//ietf//dtd html 2.0 level 2//";
   u "-//ietf//dtd html 2.0 strict level 1//";
   u "-//ietf//dtd html 2.0 strict level 2//";
   u "-//ietf//dtd html 2.0 strict//";
   u "-//ietf//dtd html 2.0//";
   u "-//ietf//dtd html 2.1e//";
   u "-//ietf//dtd html 3.0//";
   u "-//ietf//dtd html 3.2 final//";
   u "-//ietf//dtd html 3.2//";
   u "-//ietf//dtd html 3//";
   u "-//ietf//dtd html level 0//";
   u "-//ietf//dtd html level 1//";
   u "-//ietf//dtd html level 2//";
   u "-//ietf//dtd html level 3//";
   u "-//ietf//dtd html strict level 0//";
   u "-//ietf//dtd html strict level 1//";
   u "-//ietf//dtd html strict level 2//";
   u "-//ietf//dtd html strict level 3//";
   u "-//ietf//dtd html strict//";
   u "-//ietf//dtd html//";
   u "-//metrius//dtd metrius presentational//";
   u "-//microsoft//dtd internet explorer 2.0 html strict//";
   u "-//microsoft//dtd internet explorer 2.0 html//";
   u "-//microsoft//dtd internet explorer 2.0 tables//";
   u "-//microsoft//dtd internet explorer 3.0 html strict//";
   u "-//microsoft//dtd internet explorer 3.0 html//";
   u "-//microsoft//dtd internet explorer 3.0 tables//";
   u "-//netscape comm. corp.//dtd html//";
   u "-//netscape comm. corp.//dtd strict html//";
   u "-//o'reilly and associates//dtd html 2.0//";
   u "-//o'reilly and associates//dtd html extended 1.0//";
   u "-//o'reilly and associates//dtd html extended relaxed 1.0//";
   u "-//softquad software//dtd hotmetal pro 6.0::19990601::extensions to html 4.0//";
   u "-//softquad//dtd hotmetal pro 4.0::19971010::extensions to html 4.0//";
   u "-//spyglass//dtd html 2.0 extended//";
   u "-//sq//dtd html 2.0 hotmetal + extensions//";
   u "-//sun microsystems corp.//dtd hotjava html//";
   u "-//sun microsystems corp.//dtd hotjava strict html//";
   u "-//w3c//dtd html 3 1995-03-24//";
   u "-//w3c//dtd html 3.2 draft//";
   u "-//w3c//dtd html 3.2 final//";
   u "-//w3c//dtd html 3.2//";
   u "-//w3c//dtd html 3.2s draft//";
   u "-//w3c//dtd html 4.0 frameset//";
   u "-//w3c//dtd html 4.0 transitional//";
   u "-//w3c//dtd html experimental 19960712//";
   u "-//w3c//dtd html experimental 970421//";
   u "-//w3c//dtd html experimental 970421//";
   u "-//w3c//dtd w3 html//";
   u "-//w3o//dtd w3 html 3.0//";
   u "-//webtechs//dtd mozilla html 2.0//";
   u "-//webtechs//dtd mozilla html//"].
Definition quirky_public_matches : list str :=
  [u "-//w3o//dtd w3 html strict 3.0//en//";
   u "-/w3c/dtd html 4.0 transitional/en";
   u "html"].
Definition quirky_system_matches : list str :=
  [u "http://www.ibm.com/data/dtd/v11/ibmxhtml1-transitional.dtd"].
Definition limited_quirky_public_prefixes : list str :=
  [u "-//w3c//dtd xhtml 1.0 frameset//";
   u "-//w3c//dtd xhtml 1.0 transitional//"].
Definition html4_public_prefixes : list str :=
  [u "-//w3c//dtd html 4.01 frameset//";
   u "-//w3c//dtd html 4.01 transitional//"].
(* core/doctype.py:17-18 contains_prefix *)
Definition contains_prefix (haystack : list str) (needle : str) : bool := existsb (fun prefix => starts prefix needle) haystack.
(* x.lower() if x else None *)
Definition lower_opt (x : option str) : option str := match x with Some (c :: s) => Some (lower (c :: s)) | _ => None end.
Definition is_in (x : option str) (l : list str) : bool := match x with Some s => in_strs s l | None => false end.
Definition has_prefix (x : option str) (l : list str) : bool := match x with Some (c :: s) => contains_prefix l (c :: s) | _ => false end.
(* core/doctype.py:21-63 doctype_error_and_quirks, the second result *)
Definition quirks_mode (d : doctype) (iframe_srcdoc : bool) : quirks :=
  let name := lower_opt (d_name d) in
  let public_lower := lower_opt (d_public d) in
  let system_lower := lower_opt (d_system d) in
  if d_force d then Quirks
  else if iframe_srcdoc then NoQuirks
  else if negb (is_in name [u "html"]) then Quirks
  else if is_in public_lower quirky_public_matches then Quirks
  else if is_in system_lower quirky_system_matches then Quirks
  else if has_prefix public_lower quirky_public_prefixes then Quirks
  else if has_prefix public_lower limited_quirky_public_prefixes then LimitedQuirks
  else if has_prefix public_lower html4_public_prefixes then (match system_lower with None => Quirks | Some _ => LimitedQuirks end)
  else NoQuirks.

(* parser/engine.py:61-65 _DOCTYPE_RE.match.  Every part is greedy and each next character decides, so the match is computed left to right.
   A quoted string: its content and what follows *)
Definition quoted (s : str) : option (str * str) :=
  match s with
  | c :: t => if (c =? 34) || (c =? 39) then match find_char c t with Some i => Some (firstn i t, skipn (S i) t) | None => None end else None
  | [] => None
  end.
Definition skip_ws (s : str) : str := drop_while is_html_space s.
Definition ids (s : str) : option str * option str :=
  match quoted (skip_ws s) with
  | None => (None, None)
  | Some (first, s) => match quoted (skip_ws s) with Some (second, _) => (Some first, Some second) | None => (Some first, None) end
  end.
(* parser/engine.py:2471-2520 _parse_doctype, from the text after the keyword to the end of the doctype, in a document whose doctype is still wanted;
   kind.lower() is compared again because IGNORECASE folds more than ASCII *)
Definition doctype_of (raw : str) : doctype :=
  let raw := replace_char 13 [10] (replace [13; 10] [10] raw) in
  let raw := replace_char 0 [65533] raw in
  let s := skip_ws raw in
  match take_while (fun c => negb (is_html_space c || (c =? 62))) s with
  | [] => {| d_name := None; d_public := None; d_system := None; d_force := true |}
  | n =>
    let name := Some (lower n) in
    let s := drop_while (fun c => negb (is_html_space c || (c =? 62))) s in
    let k := skip_ws s in
    if starts_ci (u "public") k || starts_ci (u "system") k then
      let '(first, second) := ids (skipn 6 k) in
      let kind := lower (firstn 6 k) in
      if str_eqb kind (u "public") then {| d_name := name; d_public := first; d_system := second; d_force := false |}
      else if str_eqb kind (u "system") then {| d_name := name; d_public := None; d_system := first; d_force := false |}
      else {| d_name := name; d_public := None; d_system := None; d_force := false |}
    else {| d_name := name; d_public := None; d_system := None; d_force := match strip_chars (9 :: 10 :: 12 :: 13 :: u " ") s with [] => false | _ => true end |}
  end.
(* html.find of the closing bracket; the doctype and what is parsed next *)
Definition parse_doctype (s : str) : doctype * str :=
  match find_char 62 s with
  | Some i => (doctype_of (firstn i s), skipn (S i) s)
  | None => (doctype_of s, [])
  end.
