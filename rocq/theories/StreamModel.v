(* MODEL of parser/stream.py: the scanner behind stream(html).
   The position in the html is given by the rest of the html.  text_buffer is the concatenation of its parts (they are never empty).
   An exception of decode_entities_in_text is Raises, one of the list and dict operations Internal; in Python the events before it have been
   delivered, here only the exception is kept.
   s.lower() only where s.islower() is false: s.lower() = s where it is true, so lower is applied always. *)
From Verif Require Import Str EntitiesModel ScanModel AttrModel.
Open Scope list_scope. Open Scope N_scope.

(* stream.py:20-25 *)
Inductive event :=
| EStart (name : str) (attrs : list (str * str))
| EEnd (name : str)
| EText (text : str)
| EComment (data : str)
| EDoctype (name public_id system_id : option str).
Inductive outcome := Events (l : list event) | Raises | Internal | OutOfFuel.
Definition emit (l : list event) (o : outcome) : outcome := match o with Events t => Events (l ++ t) | x => x end.

(* scanner.py:3-9 *)
Definition tag_name_stop (c : N) : bool := mem c [9; 10; 12; 32; 47; 62].
Definition attr_name_stop (c : N) : bool := mem c [9; 10; 12; 32; 47; 62; 61].
Definition end_name_stop (c : N) : bool := mem c TAG_END_NAME_STOP.

(* ---------- open elements ---------- *)
Inductive ns := Html | Svg | Math.
Definition foreign (n : ns) : bool := match n with Html => false | _ => true end.
(* stream.py:41-66 _StreamNode; the attributes matter only for html_integration *)
Record node := Node { n_name : str; n_ns : ns; html_integration : bool }.
(* stream.py:61-66 *)
Fixpoint attribute_value (name : str) (attrs : list (str * str)) : option str :=
  match attrs with [] => None | (k, v) :: t => if str_eqb (lower k) name then Some v else attribute_value name t end.
(* constants.py:96-101, 471-473 *)
Definition html_integration_point (n : ns) (name : str) : bool :=
  match n with
  | Html => false
  | Math => str_eqb name (u "annotation-xml")
  | Svg => in_strs name [u "foreignObject"; u "desc"; u "title"]
  end.
(* constants.py:105-111, 475-477 *)
Definition mathml_text_integration_point (n : ns) (name : str) : bool :=
  match n with Math => in_strs name [u "mi"; u "mo"; u "mn"; u "ms"; u "mtext"] | _ => false end.
(* stream.py:48-59 *)
Definition new_node (name : str) (n : ns) (attrs : list (str * str)) : node :=
  Node name n
    (match n with
     | Math => if str_eqb name (u "annotation-xml")
               then match attribute_value (u "encoding") attrs with Some e => in_strs (lower e) [u "application/xhtml+xml"; u "text/html"] | None => false end
               else html_integration_point n name
     | _ => html_integration_point n name
     end).
(* stream.py:69-81: the stack with its current (last) element first; name_positions and html_positions with the last position first *)
Record opened := Opened { elements : list node; name_positions : list (str * list nat); html_positions : list nat }.
Definition no_elements : opened := Opened [] [] [].
Fixpoint set_bucket (k : str) (b : list nat) (d : list (str * list nat)) : list (str * list nat) :=
  match d with [] => [(k, b)] | (k', b') :: t => if str_eqb k k' then (k, b) :: t else (k', b') :: set_bucket k b t end.
Fixpoint del_bucket (k : str) (d : list (str * list nat)) : list (str * list nat) :=
  match d with [] => [] | (k', b') :: t => if str_eqb k k' then t else (k', b') :: del_bucket k t end.
(* stream.py:83-92 _push_open_element *)
Definition push (x : node) (o : opened) : opened :=
  let index := List.length (elements o) in
  let key := lower (n_name x) in
  Opened (x :: elements o)
    (set_bucket key (match assoc key (name_positions o) with None => [index] | Some b => index :: b end) (name_positions o))
    (if foreign (n_ns x) then html_positions o else index :: html_positions o).
(* stream.py:94-101 _forget_open_element with the pop before it (103-106); None: IndexError or KeyError *)
Definition pop_open_element (o : opened) : option opened :=
  match elements o with
  | [] => None
  | x :: rest =>
    let key := lower (n_name x) in
    match assoc key (name_positions o) with
    | None | Some [] => None
    | Some (_ :: b) =>
      let names := match b with [] => del_bucket key (name_positions o) | _ => set_bucket key b (name_positions o) end in
      if foreign (n_ns x) then Some (Opened rest names (html_positions o))
      else match html_positions o with [] => None | _ :: h => Some (Opened rest names h) end
    end
  end.
Fixpoint pop_times (k : nat) (o : opened) : option opened :=
  match k with O => Some o | S k => match pop_open_element o with None => None | Some o => pop_times k o end end.
(* stream.py:108-110 _truncate_open_elements *)
Definition truncate (index : nat) (o : opened) : option opened := pop_times (List.length (elements o) - index) o.
(* stream.py:485-487 _pop_foreign_context, 477-478 *)
Fixpoint pop_foreign_go (l : list node) (o : opened) : option opened :=
  match l with
  | [] => Some o
  | x :: l => if foreign (n_ns x) then match pop_open_element o with None => None | Some o => pop_foreign_go l o end else Some o
  end.
Definition pop_foreign_context (o : opened) : option opened := pop_foreign_go (elements o) o.
(* stream.py:489-508 _pop_for_end_tag *)
Definition pop_for_end_tag (name : str) (o : opened) : option opened :=
  match elements o with
  | [] => Some o
  | current :: _ =>
    let name_lower := lower name in
    if foreign (n_ns current) && in_strs name_lower [u "br"; u "p"] then pop_foreign_context o
    else match assoc name_lower (name_positions o) with
         | None => pop_open_element o
         | Some [] => None
         | Some (target :: _) =>
           if match html_positions o with [] => true | h :: _ => (h <=? target)%nat end then truncate target o else pop_open_element o
         end
  end.
(* stream.py:510-514 *)
Definition in_foreign_context (o : opened) : bool := match elements o with [] => false | x :: _ => foreign (n_ns x) end.

(* constants.py:418-463 *)
Definition breakout_elements : list str := map u ["b"; "big"; "blockquote"; "body"; "br"; "center"; "code"; "dd"; "div"; "dl"; "dt"; "em"; "embed"; "h1"; "h2"; "h3"; "h4"; "h5"; "h6";
  "head"; "hr"; "i"; "img"; "li"; "listing"; "menu"; "meta"; "nobr"; "ol"; "p"; "pre"; "ruby"; "s"; "small"; "span"; "strong"; "strike"; "sub"; "sup"; "table"; "tt"; "u"; "ul"; "var"]%string.
(* constants.py:379-416 *)
Definition svg_names : list (str * str) := map (fun s => (lower (u s), u s)) ["altGlyph"; "altGlyphDef"; "altGlyphItem"; "animateColor"; "animateMotion"; "animateTransform"; "clipPath"; "feBlend";
  "feColorMatrix"; "feComponentTransfer"; "feComposite"; "feConvolveMatrix"; "feDiffuseLighting"; "feDisplacementMap"; "feDistantLight"; "feFlood"; "feFuncA"; "feFuncB"; "feFuncG"; "feFuncR";
  "feGaussianBlur"; "feImage"; "feMerge"; "feMergeNode"; "feMorphology"; "feOffset"; "fePointLight"; "feSpecularLighting"; "feSpotLight"; "feTile"; "feTurbulence"; "foreignObject"; "glyphRef";
  "linearGradient"; "radialGradient"; "textPath"]%string.
(* stream.py:446-449 *)
Definition adjusted_name (name : str) (n : ns) : str := match n with Svg => match assoc name svg_names with Some x => x | None => name end | _ => name end.
(* stream.py:451-456 *)
Definition from_html_context (name : str) : ns := if str_eqb name (u "svg") then Svg else if str_eqb name (u "math") then Math else Html.
(* stream.py:434-438 *)
Definition font_breaks_out (attrs : list (str * str)) : bool := existsb (fun p => in_strs (lower (fst p)) [u "color"; u "face"; u "size"]) attrs.
(* stream.py:458-483 _namespace_for_start_tag, with the stack it leaves *)
Definition namespace_for (name : str) (attrs : list (str * str)) (o : opened) : option (ns * opened) :=
  match elements o with
  | [] => Some (from_html_context name, o)
  | parent :: _ =>
    if html_integration parent then Some (from_html_context name, o)
    else if mathml_text_integration_point (n_ns parent) (n_name parent) && negb (in_strs name [u "mglyph"; u "malignmark"]) then Some (from_html_context name, o)
    else if (match n_ns parent with Math => true | _ => false end) && str_eqb (n_name parent) (u "annotation-xml") && str_eqb name (u "svg") then Some (Svg, o)
    else if foreign (n_ns parent) then
      if in_strs name breakout_elements || (str_eqb name (u "font") && font_breaks_out attrs)
      then option_map (fun o => (from_html_context name, o)) (pop_foreign_context o)
      else Some (n_ns parent, o)
    else Some (from_html_context name, o)
  end.

(* ---------- text ---------- *)
(* stream.py:402-420 _append_text: what is appended to the buffer; None: ValueError *)
Definition append_text (raw replace_null : bool) (data : str) : option str :=
  let data := replace_char 13 [10] (replace [13; 10] [10] data) in
  let data := if replace_null then replace_char 0 [65533] data else data in
  if negb raw && mem 38 data then decode_entities_in_text data false else Some data.
(* stream.py:422-428 _flush_text *)
Definition flush (buffer : str) : list event := match buffer with [] => [] | _ => [EText buffer] end.

(* ---------- doctype ---------- *)
(* stream.py:27-30: a character of PUBLIC or SYSTEM under re.IGNORECASE *)
Definition ci (k c : N) : bool := (c =? k) || (c =? k + 32) || ((k =? 73) && ((c =? 304) || (c =? 305))) || ((k =? 83) && (c =? 383)).
Fixpoint keyword (k s : str) : option (str * str) :=
  match k with
  | [] => Some ([], s)
  | x :: k => match s with c :: s => if ci x c then option_map (fun p => (c :: fst p, snd p)) (keyword k s) else None | [] => None end
  end.
(* a quoted string *)
Definition quoted (s : str) : option (str * str) :=
  match s with
  | q :: t => if (q =? 34) || (q =? 39) then match find_char q t with Some k => Some (firstn k t, skipn (k + 1) t) | None => None end else None
  | [] => None
  end.
(* stream.py:27-30 _DOCTYPE_RE.match(data): the name, the keyword, the two identifiers *)
Definition doctype_match (data : str) : option (str * option str * option str * option str) :=
  let s := drop_while is_space data in
  match take_while (fun c => negb (is_space c || (c =? 62))) s with
  | [] => None
  | name =>
    let s := drop_while is_space (drop_while (fun c => negb (is_space c || (c =? 62))) s) in
    match (match keyword (u "PUBLIC") s with Some x => Some x | None => keyword (u "SYSTEM") s end) with
    | None => Some (name, None, None, None)
    | Some (kind, s) =>
      match quoted (drop_while is_space s) with
      | None => Some (name, Some kind, None, None)
      | Some (first, s) =>
        match quoted (drop_while is_space s) with
        | None => Some (name, Some kind, Some first, None)
        | Some (second, _) => Some (name, Some kind, Some first, Some second)
        end
      end
    end
  end.
Definition no_nul : str -> str := replace_char 0 [65533].
(* stream.py:263-289 *)
Definition doctype_event (data : str) : event :=
  match doctype_match data with
  | None => EDoctype None None None
  | Some (name, kind, first_id, second_id) =>
    let is k := match kind with Some x => str_eqb (lower x) (u k) | None => false end in
    EDoctype (Some (no_nul (lower name)))
      (if is "public"%string then option_map no_nul first_id else None)
      (if is "public"%string then option_map no_nul second_id else if is "system"%string then option_map no_nul first_id else None)
  end.

(* ---------- markup declarations ---------- *)
Inductive declaration := DEvent (e : event) | DText (t : str).
(* str.removesuffix("--") *)
Definition remove_dashes (s : str) : str := if ends [45; 45] s then firstn (List.length s - 2) s else s.
(* stream.py:238-254: what follows <!-- *)
Definition comment_declaration (s : str) : str * str :=
  if starts [62] s then ([], skipn 1 s)
  else if starts [45; 62] s then ([], skipn 2 s)
  else
    let stop k n := (no_nul (firstn k s), skipn (k + n) s) in
    match find (u "-->") s, find (u "--!>") s with
    | None, None => (no_nul (remove_dashes s), [])
    | Some k, None => stop k 3%nat
    | None, Some k => stop k 4%nat
    | Some i, Some j => if (j <=? i)%nat then stop j 4%nat else stop i 3%nat
    end.
(* up to the next character c: what comes before it and after it *)
Definition until (c : N) (s : str) : str * str := match find_char c s with None => (s, []) | Some k => (firstn k s, skipn (k + 1) s) end.
(* stream.py:233-303 _parse_markup_declaration: what follows <! *)
Definition markup_declaration (o : opened) (s : str) : declaration * str :=
  if starts [45; 45] s then let (d, r) := comment_declaration (skipn 2 s) in (DEvent (EComment d), r)
  else if ascii_startswith (u "doctype") s then let (d, r) := until 62 (skipn 7 s) in (DEvent (doctype_event d), r)
  else if ascii_startswith (u "[cdata[") s && in_foreign_context o then
    match find (u "]]>") (skipn 7 s) with
    | None => (DText (skipn 7 s), [])
    | Some k => (DText (firstn k (skipn 7 s)), skipn (k + 3) (skipn 7 s))
    end
  else let (d, r) := until 62 s in (DEvent (EComment (no_nul d)), r).

(* ---------- start tags ---------- *)
(* stream.py:339-385 the loop of _parse_attrs; the pairs of raw name and raw value first (as in AttrModel.v) *)
Fixpoint scan_pairs (fuel : nat) (acc : list (str * str)) (s : str) : scanned :=
  match fuel with
  | O => Scanned acc false s false
  | S fuel =>
    match drop_while space s with
    | [] => Scanned acc false [] false
    | ch :: t =>
      if ch =? 62 then Scanned acc false t true
      else if (ch =? 47) && starts [62] t then Scanned acc true (tl t) true
      else
        match take_while (fun c => negb (attr_name_stop c)) (ch :: t) with
        | [] => scan_pairs fuel acc t
        | raw_key =>
          let s1 := drop_while space (drop_while (fun c => negb (attr_name_stop c)) (ch :: t)) in
          match s1 with
          | e :: s2 =>
            if e =? 61 then
              match read_value s2 with
              | None => Scanned acc false [] false
              | Some (v, s3) => scan_pairs fuel (acc ++ [(raw_key, v)]) s3
              end
            else scan_pairs fuel (acc ++ [(raw_key, [])]) s1
          | [] => scan_pairs fuel (acc ++ [(raw_key, [])]) s1
          end
        end
    end
  end.
(* stream.py:353-356, 380-388 *)
Fixpoint store (attrs ps : list (str * str)) : option (list (str * str)) :=
  match ps with
  | [] => Some attrs
  | (k, v) :: ps =>
    match decoded_value v with
    | None => None
    | Some v => let key := no_nul (lower k) in store (if has_key key attrs then attrs else attrs ++ [(key, no_nul v)]) ps
    end
  end.

(* ---------- the loop ---------- *)
(* stream.py:31-33 *)
Definition rawtext_tags : list str := map u ["script"; "style"; "iframe"; "noembed"; "noframes"; "noscript"; "xmp"]%string.
Definition rcdata_tags : list str := map u ["textarea"; "title"]%string.
(* stream.py:394-397 *)
Definition find_end_tag (name s : str) : option (nat * nat) := if str_eqb name (u "script") then find_script_end_tag s else find_rawtext_end_tag name s.
Definition nil {A} (l : list A) : bool := match l with [] => true | _ => false end.
(* stream.py:111-231 scan.  s: the rest of the html; fuel: turns of the loop *)
Fixpoint scan_html (fuel : nat) (buffer : str) (o : opened) (s : str) : outcome :=
  match fuel with
  | O => OutOfFuel
  | S fuel =>
    match s with
    | [] => Events (flush buffer)
    | _ =>
      match find_char 60 s with
      | None => match append_text false false s with None => Raises | Some d => Events (flush (buffer ++ d)) end
      | Some lt =>
        match append_text false false (firstn lt s) with
        | None => Raises
        | Some d =>
          let buffer := buffer ++ d in
          match skipn (lt + 1) s with
          | [] => Events (flush (buffer ++ [60]))
          | ch :: t =>
            if ch =? 33 then
              match markup_declaration o t with
              | (DText x, r) => match append_text true false x with None => Raises | Some x => emit (flush buffer ++ flush x) (scan_html fuel [] o r) end
              | (DEvent e, r) => emit (flush buffer ++ [e]) (scan_html fuel [] o r)
              end
            else if ch =? 47 then
              match t with
              | [] => scan_html fuel (buffer ++ [60; 47]) o []
              | c :: t' =>
                if negb (is_alpha_ascii c) then
                  if c =? 62 then scan_html fuel buffer o t'
                  else let (d, r) := until 62 t in emit (flush buffer ++ [EComment (no_nul d)]) (scan_html fuel [] o r)
                else
                  let name := lower (take_while (fun c => negb (end_name_stop c)) t) in
                  let after := drop_while (fun c => negb (end_name_stop c)) t in
                  let r := match find_tag_end None after with None => [] | Some e => skipn (e + 1) after end in
                  if nil r && negb (ends [62] s) then scan_html fuel buffer o []
                  else match pop_for_end_tag name o with
                       | None => Internal
                       | Some o => emit (flush buffer ++ [EEnd name]) (scan_html fuel [] o r)
                       end
              end
            else if ch =? 63 then
              let (d, r) := until 62 t in emit (flush buffer ++ [EComment (no_nul (63 :: d))]) (scan_html fuel [] o r)
            else if negb (is_alpha_ascii ch) then emit (flush buffer) (scan_html fuel [60] o (ch :: t))
            else
              let name := lower (take_while (fun c => negb (tag_name_stop c)) (ch :: t)) in
              let after := drop_while (fun c => negb (tag_name_stop c)) (ch :: t) in
              let tag := scan_pairs (S (List.length after)) [] after in
              match store [] (pairs tag) with
              | None => Raises
              | Some attrs =>
                if negb (tag_closed tag) then Events (flush buffer)
                else
                  match namespace_for name attrs o with
                  | None => Internal
                  | Some (n, o) =>
                    let o := if self_closing tag && foreign n then o else push (new_node (adjusted_name name n) n attrs) o in
                    emit (flush buffer ++ [EStart name attrs])
                      (if negb (foreign n) && str_eqb name (u "plaintext") then
                         match append_text true true (rest tag) with None => Raises | Some x => scan_html fuel x o [] end
                       else if negb (foreign n) && (in_strs name rawtext_tags || in_strs name rcdata_tags) then
                         match find_end_tag name (rest tag) with
                         | None =>
                           match append_text (negb (in_strs name rcdata_tags)) true (rest tag) with None => Raises | Some x => scan_html fuel x o [] end
                         | Some (close, after_close) =>
                           match append_text (negb (in_strs name rcdata_tags)) true (firstn close (rest tag)) with
                           | None => Raises
                           | Some x =>
                             emit (flush x)
                               (if nil (skipn after_close (rest tag)) && negb (ends [62] s) then scan_html fuel [] o []
                                else match pop_for_end_tag name o with
                                     | None => Internal
                                     | Some o => emit [EEnd name] (scan_html fuel [] o (skipn after_close (rest tag)))
                                     end)
                           end
                         end
                       else scan_html fuel [] o (rest tag))
                  end
              end
          end
        end
      end
    end
  end.
(* stream.py:517-526 stream, for a str *)
Definition stream (html : str) : outcome := scan_html (S (List.length html)) [] no_elements html.
