(* MODEL of what the parser takes as the text of a title, textarea, style, script ... element: parser/engine.py:5291-5296, 5349-5351, 5427-5441, 2224-2231.
   Not modelled: removal of the invisible characters (an option), XML coercion (an option), the one newline dropped at the start of a
   textarea, source positions, and where the element goes in the tree. *)
From Verif Require Import Str EntitiesModel ScanModel.
Open Scope N_scope.

(* engine.py:5291-5296 _consume_until_end_tag, 5427-5435: the raw text and the rest of the input.  s is the input after the start tag *)
Definition until_end_tag (name s : str) : str * str :=
  match (if str_eqb name (u "script") then find_script_end_tag s else find_rawtext_end_tag name s) with
  | None => (s, [])
  | Some (close, next_pos) => (firstn close s, skipn next_pos s)
  end.
(* engine.py:5438-5441 (and 2226-2229 with replace_null) line ends, then U+0000 *)
Definition clean_raw (t : str) : str := replace_char 0 [65533] (replace_char 13 [10] (replace [13; 10] [10] t)).
(* engine.py:5402-5455 _parse_rawtext_element: the text, the rest of the input *)
Definition raw_element (name s : str) : str * str := let (t, r) := until_end_tag name s in (clean_raw t, r).
(* engine.py:5340-5351 _parse_rcdata_element with 2224-2231 _clean_text(replace_null=True).  None: decode_entities_in_text raises *)
Definition rcdata_element (name s : str) : option str * str :=
  let (t, r) := until_end_tag name s in
  let t := clean_raw t in (if mem 38 t then decode_entities_in_text t false else Some t, r).
