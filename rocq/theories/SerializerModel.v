(* MODEL of /repo/src/justhtml/serializer/html.py (compact HTML serialization and the escaping helpers),
   core/text.py and core/rawtext.py.  ValueError is [None]. *)
From Verif Require Import Str.
Open Scope N_scope.

(* core/text.py:8-31 ascii_lower *)
Definition ascii_lower (text : str) : str :=
  if is_ascii text then lower text
  else if mem 304 text || mem 8490 text then alow text
  else lower text.

(* serializer/html.py:80-81 _escape_html_chars *)
Definition escape_html_chars (text : str) : str :=
  replace_char 62 (u "&gt;") (replace_char 60 (u "&lt;") (replace_char 38 (u "&amp;") text)).

(* serializer/html.py:84-90 _escape_text *)
Definition escape_text (text : str) : str :=
  match text with
  | [] => []
  | _ => if negb (mem 38 text) && negb (mem 60 text) && negb (mem 62 text) then text else escape_html_chars text
  end.

(* re `$`: the end of the string, or just before one final newline *)
Definition drop_final_nl (s : str) : str :=
  match rev s with 10 :: r => rev r | _ => s end.

(* serializer/html.py:35 _SERIALIZABLE_TAG_NAME_RE = ^[A-Za-z][^\t\n\f\r />]*$ *)
Definition tag_name_char (c : N) : bool := negb (mem c [9; 10; 12; 13; 32; 47; 62]).
Definition tag_name_re (s : str) : bool :=
  match drop_final_nl s with
  | [] => false
  | c :: t => is_alpha_ascii c && forallb tag_name_char t
  end.
(* serializer/html.py:36 _SERIALIZABLE_ATTR_NAME_RE = ^[^\t\n\f\r />=]+$ *)
Definition attr_name_char (c : N) : bool := negb (mem c [9; 10; 12; 13; 32; 47; 62; 61]).
Definition attr_name_re (s : str) : bool :=
  match drop_final_nl s with
  | [] => false
  | s' => forallb attr_name_char s'
  end.

(* serializer/html.py:93-106 _validate_serializable_*_name *)
Definition validate_tag_name (name : str) : option str := if tag_name_re name then Some name else None.
Definition validate_attr_name (name : str) : option str := if attr_name_re name then Some name else None.

(* serializer/html.py:109-114 _safe_doctype_name *)
Definition safe_doctype_name (name : str) : str := if tag_name_re name then name else [].

(* serializer/html.py:121-123: while "--" in out: out = out.replace("--", "- -").  [None] = out of fuel. *)
Fixpoint dash_loop (fuel : nat) (out : str) : option str :=
  if contains [45; 45] out then
    match fuel with
    | O => None
    | S k => dash_loop k (replace [45; 45] [45; 32; 45] out)
    end
  else Some out.

(* serializer/html.py:117-134 _serialize_comment_data; the loop runs at most twice (SerializerProofs.dash_loop_enough) *)
Definition serialize_comment_data_opt (data : str) : option str :=
  match data with
  | [] => Some []
  | _ =>
    match dash_loop 3 data with
    | None => None
    | Some out0 =>
      let out1 := if starts [62] out0 || starts [45; 62] out0 then 32 :: out0 else out0 in
      let out2 := if ends (u "<!-") out1 then (out1 ++ [32])%list else out1 in
      let out3 := if ends [45] out2 then (out2 ++ [32])%list else out2 in
      Some out3
    end
  end.
Definition serialize_comment_data (data : str) : str :=
  match serialize_comment_data_opt data with Some s => s | None => [] end.

(* core/constants.py:9 HTML_SPACE_OR_TAG_END_CHARACTERS *)
Definition space_or_tag_end (c : N) : bool := mem c [9; 10; 12; 13; 32; 47; 62].

(* core/rawtext.py:17-32, the while loop.  [out] is the concatenation of the pieces appended so far.
   Every iteration increases [start]; [None] = out of fuel. *)
Fixpoint neutralize_loop (fuel : nat) (lower_text text needle : str) (start : nat) (out : str) (changed : bool)
  : option (str * nat * bool) :=
  match fuel with
  | O => None
  | S k =>
    match find needle (skipn start lower_text) with
    | None => Some (out, start, changed)
    | Some d =>
      let idx := (start + d)%nat in
      let boundary := (idx + List.length needle)%nat in
      if match nth_error text boundary with
         | None => true                       (* boundary == len(text) *)
         | Some c => space_or_tag_end c
         end
      then neutralize_loop k lower_text text needle (S idx) (out ++ slice text start idx ++ u "&lt;")%list true
      else neutralize_loop k lower_text text needle (S idx) out changed
    end
  end.

(* core/rawtext.py:7-38 neutralize_rawtext_end_tag_sequences *)
Definition neutralize_opt (text tag_name : str) : option (str * bool) :=
  match text with
  | [] => Some (text, false)
  | _ =>
    let lower_text := ascii_lower text in
    let needle := (u "</" ++ tag_name)%list in
    match neutralize_loop (S (S (List.length text))) lower_text text needle O [] false with
    | None => None
    | Some (out, start, changed) =>
      if changed then Some ((out ++ skipn start text)%list, true) else Some (text, false)
    end
  end.
Definition neutralize (text tag_name : str) : str :=
  match neutralize_opt text tag_name with Some (s, _) => s | None => [] end.

(* serializer/html.py:141-150 _serialize_pi_data *)
Definition serialize_pi_data (data : str) : str := replace_char 62 [32] data.

(* serializer/html.py:32-34 *)
Definition literal_text_elements : list str :=
  [u "iframe"; u "noembed"; u "noframes"; u "plaintext"; u "script"; u "style"; u "xmp"].

(* serializer/html.py:153-165 _serialize_text_for_parent.  [parent] = (name, namespace) of the parent, if any.
   `name if name.islower() else name.lower()` is [lower name]. *)
Definition parent_info := option (str * option str).
Definition is_html_ns (ns : option str) : bool := match ns with Some n => str_eqb n (u "html") | None => false end.
Definition serialize_text_for_parent (text : str) (parent : parent_info) : str :=
  match text with
  | [] => []
  | _ =>
    match parent with
    | Some (pname, ns) =>
      if is_html_ns ns then
        let name := lower pname in
        if in_strs name literal_text_elements then
          if str_eqb name (u "plaintext") then text else neutralize text name
        else escape_text text
      else escape_text text
    | None => escape_text text
    end
  end.

(* serializer/html.py:168-203 _escape_js_string; [None] = ValueError (quote must be a single or double quote) *)
Definition escape_js_char (quote ch : N) : str :=
  if ch =? 92 then [92; 92]
  else if ch =? quote then [92; quote]
  else if ch =? 10 then u "\n"
  else if ch =? 13 then u "\r"
  else if ch =? 9 then u "\t"
  else if ch =? 8 then u "\b"
  else if ch =? 12 then u "\f"
  else if ch =? 60 then u "\u003c"
  else if ch =? 62 then u "\u003e"
  else if ch =? 8232 then u "\u2028"
  else if ch =? 8233 then u "\u2029"
  else [ch].
Definition escape_js_string (value : str) (quote : str) : option str :=
  match quote with
  | [q] => if (q =? 34) || (q =? 39) then Some (flat_map (escape_js_char q) value) else None
  | _ => None
  end.

(* serializer/html.py:232-240 _choose_attr_quote *)
Definition choose_attr_quote (value : option str) (forced : option str) : N :=
  match forced with
  | Some [34] => 34
  | Some [39] => 39
  | _ => match value with
         | None => 34
         | Some v => if mem 34 v && negb (mem 39 v) then 39 else 34
         end
  end.

(* serializer/html.py:243-251 _escape_attr_value *)
Definition escape_attr_value (value : str) (quote_char : N) : str :=
  if negb (mem 38 value) && negb (mem 60 value) && negb (mem 62 value) && negb (mem quote_char value) then value
  else let escaped := escape_html_chars value in
       if quote_char =? 34 then replace_char 34 (u "&quot;") escaped
       else replace_char 39 (u "&#39;") escaped.

(* serializer/html.py:31, 254-258 _can_unquote_attr_value: no space character, quote, '=' or '>' *)
Definition unquoted_invalid (c : N) : bool := mem c [32; 9; 10; 12; 13; 34; 39; 61; 62].
Definition can_unquote_attr_value (value : str) : bool := negb (existsb unquoted_invalid value).

(* serializer/html.py:37-67 _BOOLEAN_ATTRIBUTES *)
Definition boolean_attributes_any : list str := [u "autofocus"; u "headingreset"; u "inert"; u "itemscope"].
Definition boolean_attributes : list (str * list str) :=
  [(u "audio", [u "autoplay"; u "controls"; u "loop"; u "muted"]);
   (u "button", [u "disabled"; u "formnovalidate"]);
   (u "details", [u "open"]);
   (u "dialog", [u "open"]);
   (u "fieldset", [u "disabled"]);
   (u "form", [u "novalidate"]);
   (u "iframe", [u "allowfullscreen"]);
   (u "img", [u "controls"; u "ismap"]);
   (u "input", [u "alpha"; u "checked"; u "disabled"; u "formnovalidate"; u "multiple"; u "readonly"; u "required"]);
   (u "link", [u "disabled"]);
   (u "ol", [u "reversed"]);
   (u "optgroup", [u "disabled"]);
   (u "option", [u "disabled"; u "selected"]);
   (u "script", [u "async"; u "defer"; u "nomodule"]);
   (u "select", [u "disabled"; u "multiple"; u "required"]);
   (u "template", [u "shadowrootclonable"; u "shadowrootcustomelementregistry"; u "shadowrootdelegatesfocus"; u "shadowrootserializable"]);
   (u "textarea", [u "disabled"; u "readonly"; u "required"]);
   (u "track", [u "default"]);
   (u "video", [u "autoplay"; u "controls"; u "loop"; u "muted"; u "playsinline"]);
   (u "*", boolean_attributes_any)].

Record tag_opts := TagOpts {
  quote_attr_values : bool; minimize_boolean_attributes : bool; quote_char : option str;
  use_trailing_solidus : bool; is_void : bool }.
Definition default_opts := TagOpts true true None false false.

(* serializer/html.py:310-332, one iteration of the attribute loop *)
Definition serialize_attr (o : tag_opts) (namespace : option str) (name raw_key : str) (value : option str) : option str :=
  match validate_attr_name raw_key with
  | None => None
  | Some key =>
    let v := match value with None => [] | Some w => w end in
    let empty := match v with [] => true | _ => false end in
    let html_ns := match namespace with None => true | Some n => str_eqb n (u "html") end in
    if minimize_boolean_attributes o && empty then Some (32 :: key)
    else if minimize_boolean_attributes o && html_ns
            && (in_strs (lower key) boolean_attributes_any
                || in_strs (lower key) (match assoc (lower name) boolean_attributes with Some l => l | None => [] end))
            && is_ascii v && str_eqb (lower v) (lower key)
    then Some (32 :: key)
    else if empty then Some (32 :: key ++ [61; 34; 34])%list
    else if negb (quote_attr_values o) && can_unquote_attr_value v
    then Some (32 :: key ++ 61 :: replace_char 60 (u "&lt;") (replace_char 38 (u "&amp;") v))%list
    else let q := choose_attr_quote value (quote_char o) in
         Some (32 :: key ++ 61 :: q :: escape_attr_value v q ++ [q])%list
  end.

Fixpoint serialize_attrs (o : tag_opts) (namespace : option str) (name : str) (attrs : list (str * option str)) : option str :=
  match attrs with
  | [] => Some []
  | (k, v) :: t =>
    match serialize_attr o namespace name k v with
    | None => None
    | Some s => option_map (app s) (serialize_attrs o namespace name t)
    end
  end.

(* serializer/html.py:291-339 serialize_start_tag.  A dict of attributes is an association list in insertion order. *)
Definition serialize_start_tag (o : tag_opts) (namespace : option str) (name : str) (attrs : list (str * option str)) : option str :=
  match validate_tag_name name with
  | None => None
  | Some name =>
    match serialize_attrs o namespace name attrs with
    | None => None
    | Some a =>
      Some (60 :: name ++ a ++ (if use_trailing_solidus o && is_void o then u " />" else u ">"))%list
    end
  end.

(* serializer/html.py:342-344 serialize_end_tag *)
Definition serialize_end_tag (name : str) : option str :=
  match validate_tag_name name with
  | None => None
  | Some name => Some (60 :: 47 :: name ++ [62])%list
  end.

(* serializer/html.py:261-288 _serialize_doctype.  Data: None, a str, or a Doctype object. *)
Record doctype := Doctype_ { dt_name : option str; dt_public : option str; dt_system : option str }.
Inductive doctype_data := DNone | DStr (s : str) | DObj (d : doctype).
Definition serialize_doctype (d : doctype_data) : str :=
  let '(name, public_id, system_id) :=
    match d with
    | DNone => (u "html", None, None)
    | DStr s => (s, None, None)
    | DObj d => (match dt_name d with Some n => n | None => [] end, dt_public d, dt_system d)
    end in
  let name := safe_doctype_name name in
  (u "<!DOCTYPE"
   ++ (match name with [] => [] | _ => 32 :: name end)
   ++ (match public_id with
       | Some p => u " PUBLIC """ ++ escape_attr_value p 34 ++ [34]
                   ++ (match system_id with
                       | Some s => u " """ ++ escape_attr_value s 34 ++ [34]
                       | None => [] end)
       | None => match system_id with
                 | Some s => u " SYSTEM """ ++ escape_attr_value s 34 ++ [34]
                 | None => [] end
       end)
   ++ [62])%list.

(* The part of the DOM the serializer reads (dom/__init__.py): node kinds, names, data, attributes, children,
   template contents.  `data is None` and `data == ""` are not distinguished for text, comments and PIs. *)
Inductive node :=
| NText (data : str)
| NComment (data : str)
| NPI (data : str)
| NDoctype (d : doctype_data)
| NDocument (children : list node)             (* #document and #document-fragment *)
| NElem (name : str) (ns : option str) (attrs : list (str * option str))
        (children : list node) (template_content : option (list node)).

(* core/constants.py:496-513 VOID_ELEMENTS *)
Definition void_elements : list str :=
  [u "area"; u "base"; u "br"; u "col"; u "embed"; u "hr"; u "img"; u "input"; u "link"; u "meta"; u "param";
   u "source"; u "track"; u "wbr"].

(* serializer/html.py:401-409 which children are serialized, and what their parent is for text escaping:
   children of `template_content` have the content fragment as parent, which is not an element. *)
Definition serialized_children (name : str) (ns : option str) (children : list node) (tc : option (list node))
  : list node * parent_info :=
  if str_eqb name (u "template") && match ns with None => true | Some n => str_eqb n (u "html") end then
    match tc with
    | Some l => (l, None)
    | None => (children, Some (name, ns))
    end
  else (children, Some (name, ns)).

(* serializer/html.py:347-420 _node_to_html_compact: an explicit stack of nodes (with the parent each text node
   sees) and end-tag markers.  [fuel]: number of loop iterations; result [inl None] = out of fuel is represented
   by [Fuel], ValueError by [Raise]. *)
Inductive item := INode (n : node) (parent : parent_info) | IEnd (name : str).
Inductive ser_result := Fuel | Raise | Ok (html : str).

Fixpoint compact_loop (fuel : nat) (stack : list item) (parts : str) : ser_result :=
  match stack with
  | [] => Ok parts
  | it :: stack' =>
    match fuel with
    | O => Fuel
    | S k =>
      match it with
      | IEnd name => compact_loop k stack' (parts ++ u "</" ++ name ++ u ">")%list
      | INode (NText data) parent => compact_loop k stack' (parts ++ serialize_text_for_parent data parent)%list
      | INode (NComment data) _ => compact_loop k stack' (parts ++ u "<!--" ++ serialize_comment_data data ++ u "-->")%list
      | INode (NPI data) _ => compact_loop k stack' (parts ++ u "<?" ++ serialize_pi_data data ++ u "?>")%list
      | INode (NDoctype d) _ => compact_loop k stack' (parts ++ serialize_doctype d)%list
      | INode (NDocument cs) _ => compact_loop k (map (fun c => INode c None) cs ++ stack')%list parts
      | INode (NElem name ns attrs children tc) _ =>
        match serialize_start_tag default_opts ns name attrs with
        | None => Raise
        | Some s =>
          if in_strs name void_elements then compact_loop k stack' (parts ++ s)%list
          else let '(cs, p) := serialized_children name ns children tc in
               compact_loop k (map (fun c => INode c p) cs ++ IEnd name :: stack')%list (parts ++ s)%list
        end
      end
    end
  end.

(* Enough fuel: one iteration per node plus one per end tag (SerializerProofs.compact_total). *)
Fixpoint node_size (n : node) : nat :=
  match n with
  | NDocument cs => S (fold_right (fun c a => node_size c + a)%nat O cs)
  | NElem _ _ _ cs tc =>
    S (S (fold_right (fun c a => node_size c + a)%nat O cs
          + match tc with Some l => fold_right (fun c a => node_size c + a)%nat O l | None => O end))
  | _ => 1%nat
  end.

(* to_html(pretty=False); the node is a root (or its parent is given) *)
Definition to_html_compact (n : node) (parent : parent_info) : ser_result :=
  compact_loop (node_size n) [INode n parent] [].

(* str.encode("utf-8"), strict: [None] = UnicodeEncodeError (a surrogate).  CPython's encoder. *)
Definition utf8_encode1 (c : N) : option (list N) :=
  if c <? 128 then Some [c]
  else if c <? 2048 then Some [192 + c / 64; 128 + c mod 64]
  else if (55296 <=? c) && (c <? 57344) then None
  else if c <? 65536 then Some [224 + c / 4096; 128 + (c / 64) mod 64; 128 + c mod 64]
  else Some [240 + c / 262144; 128 + (c / 4096) mod 64; 128 + (c / 64) mod 64; 128 + c mod 64].
Fixpoint utf8_encode (s : str) : option (list N) :=
  match s with
  | [] => Some []
  | c :: t => match utf8_encode1 c, utf8_encode t with Some a, Some b => Some (a ++ b)%list | _, _ => None end
  end.

(* urllib.parse._ALWAYS_SAFE and the `safe` argument used by serializer/html.py:213 *)
Definition quote_safe (b : N) : bool := is_alnum_ascii b || mem b (u "_.-~") || mem b (u "/:@?&=#+-._~").
Definition hex_upper (d : N) : N := if d <? 10 then 48 + d else 55 + d.
(* urllib.parse.quote_from_bytes: a safe byte or "%{:02X}" *)
Definition quote_byte (b : N) : str := if quote_safe b then [b] else [37; hex_upper (b / 16); hex_upper (b mod 16)].

(* serializer/html.py:203-213 _escape_url_value (= JustHTML.escape_url_value); [None] = UnicodeEncodeError *)
Definition escape_url_value (value : str) : option str :=
  match value with
  | [] => Some []
  | _ => option_map (flat_map quote_byte) (utf8_encode value)
  end.

(* serializer/html.py:215-225 _escape_url_value_for_html_attr *)
Definition escape_url_value_for_html_attr (value : str) : option str :=
  option_map (replace_char 38 (u "&amp;")) (escape_url_value value).

(* parser/__init__.py:389-398 JustHTML.escape_html_text_in_js_string *)
Definition escape_html_text_in_js_string (value quote : str) : option str := escape_js_string (escape_text value) quote.
(* parser/__init__.py:367-370 JustHTML.escape_url_in_js_string *)
Definition escape_url_in_js_string (value quote : str) : option str :=
  match escape_url_value value with Some v => escape_js_string v quote | None => None end.
