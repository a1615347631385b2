(* How the parser cleans the text of text nodes, comments and processing instructions.
   Model of src/justhtml/parser/engine.py, statement by statement; characters are code points.  No proofs in this file. *)
From Verif Require Import Str UrlModel EntitiesModel.

(* engine.py:1720-1721, 1731-1732, 2226-2227, 5317-5318, 5439-5440, 5487 ...:
   if self._has_carriage_return and "\r" in s: s = s.replace("\r\n", "\n").replace("\r", "\n") *)
Definition newlines (has_cr : bool) (s : str) : str :=
  if has_cr && mem 13 s then replace [13] [10] (replace [13; 10] [10] s) else s.

(* engine.py:1722-1723, 1733-1734, 2228-2229, 5441-5442: if self._has_null and "\0" in s: s = s.replace("\0", r) *)
Definition nulls (has_null : bool) (r s : str) : str := if has_null && mem 0 s then replace_char 0 r s else s.

(* engine.py:71-76 _XML_COERCION_PATTERN: a class of form feed, U+FDD0-U+FDEF and the last two code points of each of the 17 planes *)
Definition invalid_single : list N := flat_map (fun p => [N.of_nat p * 65536 + 65534; N.of_nat p * 65536 + 65535]) (seq 0 17).
Definition xml_pattern (c : N) : bool := (c =? 12) || ((64976 <=? c) && (c <=? 65007)) || mem c invalid_single.

(* engine.py:334-335 _xml_coercion_callback *)
Definition xml_callback (c : N) : N := if c =? 12 then 32 else 65533.

(* engine.py:338-343 _coerce_text_for_xml *)
Definition coerce_text (text : str) : str :=
  if is_ascii text then (if mem 12 text then replace_char 12 [32] text else text)
  else if negb (existsb xml_pattern text) then text
  else map (fun c => if xml_pattern c then xml_callback c else c) text.

(* engine.py:346-347 _coerce_comment_for_xml *)
Definition coerce_comment (text : str) : str := if contains [45; 45] text then replace [45; 45] [45; 32; 45] text else text.

(* engine.py:355-369, the loop of _normalize_surrogate_pairs: [done] is text[:i], [s] is text[i:]; the result is
   allocated at the first pair.  Joining is done at the end of the loop. *)
Fixpoint pairs_loop (done : str) (result : option str) (s : str) {struct s} : option str :=
  match s with
  | [] => result
  | ch :: t =>
    match t with
    | next :: t2 =>
      if (55296 <=? ch) && (ch <=? 56319) && ((56320 <=? next) && (next <=? 57343)) then
        let r := match result with None => done | Some r => r end in
        pairs_loop (done ++ [ch; next]) (Some (r ++ [65536 + N.shiftl (ch - 55296) 10 + (next - 56320)])%list) t2
      else pairs_loop (done ++ [ch]) (option_map (fun r => r ++ [ch])%list result) t
    | [] => pairs_loop (done ++ [ch]) (option_map (fun r => r ++ [ch])%list result) t
    end
  end.
(* engine.py:350-370 _normalize_surrogate_pairs *)
Definition normalize_pairs (text : str) : str :=
  if is_ascii text then text else match pairs_loop [] None text with Some r => r | None => text end.

(* engine.py:2224-2236 _clean_text.  None = ValueError of decode_entities_in_text *)
Definition clean_text (has_cr has_null strip_invisible_unicode xml_coercion replace_null : bool) (raw : str) : option str :=
  let text := newlines has_cr raw in
  let text := nulls has_null (if replace_null then [65533] else []) text in
  match (if mem 38 text then decode_entities_in_text text false else Some text) with
  | None => None
  | Some text =>
    let text := if strip_invisible_unicode && negb (match text with [] => true | _ => false end) && negb (is_ascii text) then strip_invisible text else text in
    Some (if xml_coercion && negb (match text with [] => true | _ => false end) then coerce_text text else text)
  end.

(* engine.py:5508-5518 _append_raw_literal_text up to the insertion: the text of iframe, noembed, xmp, plaintext ... *)
Definition clean_raw (has_cr has_null strip_invisible_unicode xml_coercion : bool) (raw : str) : str :=
  let text := newlines has_cr raw in
  let text := nulls has_null [65533] text in
  let text := if strip_invisible_unicode && negb (match text with [] => true | _ => false end) && negb (is_ascii text) then strip_invisible text else text in
  if xml_coercion && negb (match text with [] => true | _ => false end) then coerce_text text else text.

(* engine.py:1719-1727 _append_comment up to the insertion *)
Definition clean_comment (has_cr has_null xml_coercion : bool) (data : str) : str :=
  let data := newlines has_cr data in
  let data := nulls has_null [65533] data in
  let data := normalize_pairs data in
  if xml_coercion then coerce_comment data else data.

(* engine.py:373-378 *)
Definition pi_name_start (c : N) : bool := (c =? 95) || is_alpha_ascii c.
Definition pi_name_char (c : N) : bool := (c =? 95) || (c =? 45) || is_alpha_ascii c || is_digit_ascii c.

Definition SPACE : str := [32; 9; 10; 12; 13].
(* engine.py:1738-1778 _processing_instruction_data; the argument is html[content_start:content_end] *)
Definition pi_data (content : str) : option str :=
  match content with
  | [] => None
  | c :: t =>
    if negb (pi_name_start c) then None else
    let target := c :: take_while pi_name_char t in
    let rest := drop_while pi_name_char t in
    if starts (u "xml") (lower target) then None else
    match rest with
    | [] => Some (target ++ [32])%list
    | ch :: rest' =>
      let data_start := if ch =? 63 then Some rest else if mem ch SPACE then Some (drop_while (fun x => mem x SPACE) rest') else None in
      match data_start with
      | None => None
      | Some data =>
        let data := if ends [63] data then removelast data else data in
        match data with
        | [] => Some (target ++ [32])%list
        | _ => Some (target ++ [32] ++ data)%list
        end
      end
    end
  end.
(* engine.py:1730-1736 _append_processing_instruction: the data of the node *)
Definition clean_pi (has_cr has_null : bool) (data : str) : str := nulls has_null [65533] (newlines has_cr data).
(* engine.py:2195-2197: the processing instruction between <? and the next > *)
Definition read_pi (has_cr has_null : bool) (content : str) : option str := option_map (clean_pi has_cr has_null) (pi_data content).
