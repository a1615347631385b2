(* MODEL of src/justhtml/parser/encoding.py.  bytes are lists of numbers < 256. *)
From Verif Require Import Str.
Open Scope N_scope.

(* encoding.py:12 _ASCII_WHITESPACE *)
Definition ws (b : N) : bool := (b =? 9) || (b =? 10) || (b =? 12) || (b =? 13) || (b =? 32).
(* encoding.py:15-24 _ascii_lower, _is_ascii_alpha *)
Definition lower_byte (b : N) : N := if (65 <=? b) && (b <=? 90) then N.lor b 32 else b.
Definition alpha_byte (b : N) : bool := let b := lower_byte b in (97 <=? b) && (b <=? 122).
(* encoding.py:27-31 _skip_ascii_whitespace *)
Definition skip (s : str) : str := drop_while ws s.
(* encoding.py:34-43 _strip_ascii_whitespace *)
Definition strip_ws (v : option str) : option str := option_map (fun s => rstrip_by ws (lstrip_by ws s)) v.
(* bytes.lower() *)
Definition blower (s : str) : str := alow s.

(* encoding.py:46-94 normalize_encoding_label, for str; bytes are decoded first (ascii, ignore) *)
Definition norm_str (label : str) : option str :=
  match label with
  | [] => None
  | _ =>
    match strip label with
    | [] => None
    | s =>
      let s := lower s in
      if in_strs s [u "utf-7"; u "utf7"; u "x-utf-7"] then Some (u "windows-1252")
      else if in_strs s [u "utf-8"; u "utf8"] then Some (u "utf-8")
      else if in_strs s [u "iso-8859-1"; u "iso8859-1"; u "latin1"; u "latin-1"; u "l1"; u "cp819"; u "ibm819"] then Some (u "windows-1252")
      else if in_strs s [u "windows-1252"; u "windows1252"; u "cp1252"; u "x-cp1252"] then Some (u "windows-1252")
      else if in_strs s [u "iso-8859-2"; u "iso8859-2"; u "latin2"; u "latin-2"] then Some (u "iso-8859-2")
      else if in_strs s [u "euc-jp"; u "eucjp"] then Some (u "euc-jp")
      else if in_strs s [u "utf-16"; u "utf16"] then Some (u "utf-16")
      else if in_strs s [u "utf-16le"; u "utf16le"] then Some (u "utf-16le")
      else if in_strs s [u "utf-16be"; u "utf16be"] then Some (u "utf-16be")
      else None
    end
  end.
Definition norm_bytes (label : str) : option str :=
  match label with [] => None | _ => norm_str (filter (fun b => b <? 128) label) end.
(* encoding.py:97-107 _normalize_meta_declared_encoding *)
Definition norm_meta (label : str) : option str :=
  match norm_bytes label with
  | None => None
  | Some e => if in_strs e [u "utf-16"; u "utf-16le"; u "utf-16be"; u "utf-32"; u "utf-32le"; u "utf-32be"] then Some (u "utf-8") else Some e
  end.
(* encoding.py:110-117 _sniff_bom *)
Definition sniff_bom (d : str) : option (str * nat) :=
  if starts [239; 187; 191] d then Some (u "utf-8", 3%nat)
  else if starts [255; 254] d then Some (u "utf-16le", 2%nat)
  else if starts [254; 255] d then Some (u "utf-16be", 2%nat)
  else None.
(* encoding.py:120-163 _extract_charset_from_content *)
Definition extract_charset (content : str) : option str :=
  match content with
  | [] => None
  | _ =>
    let s := map (fun b => if ws b then 32 else lower_byte b) content in
    match find (u "charset") s with
    | None => None
    | Some idx =>
      match skip (skipn (idx + 7) s) with
      | e :: t =>
        if e =? 61 then
          match skip t with
          | [] => None
          | q :: r =>
            if (q =? 34) || (q =? 39) then
              match find_char q r with Some k => Some (firstn k r) | None => None end
            else Some (take_while (fun b => negb (ws b || (b =? 59))) (q :: r))
          end
        else None
      | [] => None
      end
    end
  end.

(* encoding.py:168-170 *)
Definition cap : N := 65536.
Definition max_non_comment : N := 1024.
(* the position after going from [s] to its suffix [r] *)
Definition moved (pos : N) (s r : str) : N := pos + N.of_nat (List.length s - List.length r).

(* encoding.py:194-211, 225-242 skipping a tag: [quote] as in the code; gives the position, the count and the bytes left *)
Fixpoint skip_tag (pos nc : N) (quote : option N) (s : str) : N * N * str :=
  match s with
  | [] => (pos, nc, [])
  | ch :: t =>
    if (pos <? cap) && (nc <? max_non_comment) then
      match quote with
      | None => if (ch =? 34) || (ch =? 39) then skip_tag (pos + 1) (nc + 1) (Some ch) t
                else if ch =? 62 then (pos + 1, nc + 1, t)
                else skip_tag (pos + 1) (nc + 1) None t
      | Some q => skip_tag (pos + 1) (nc + 1) (if ch =? q then None else Some q) t
      end
    else (pos, nc, s)
  end.

(* encoding.py:244-313 the attributes of a meta tag.  AGt: saw_gt, with the bytes after the tag and the three values; ANo u: not, and u says
   whether an unclosed quote ended it (i and non_comment are then advanced once more).  Fuel: every round consumes a byte. *)
Record metas := Metas { charset : option str; http_equiv : option str; content : option str }.
Inductive ares := AGt (rest : str) (m : metas) | ANo (unclosed : bool) | AFuel.
Definition name_stop (b : N) : bool := ws b || (b =? 61) || (b =? 62) || (b =? 47) || (b =? 60).
Definition value_stop (b : N) : bool := ws b || (b =? 62) || (b =? 60).
(* 268-306 one attribute: None value: no '='.  Stop u: the loop is left *)
Inductive one := Attr (name : str) (value : option str) (rest : str) | Stop (unclosed : bool).
Definition attr_one (s : str) : one :=
  let name := blower (take_while (fun b => negb (name_stop b)) s) in
  let s := skip (drop_while (fun b => negb (name_stop b)) s) in
  match s with
  | e :: t =>
    if e =? 61 then
      match skip t with
      | [] => Stop false
      | q :: r =>
        if (q =? 34) || (q =? 39) then
          match find_char q r with
          | None => Stop true
          | Some k => Attr name (Some (firstn k r)) (skipn (S k) r)
          end
        else Attr name (Some (take_while (fun b => negb (value_stop b)) (q :: r))) (drop_while (fun b => negb (value_stop b)) (q :: r))
      end
    else Attr name None s
  | [] => Attr name None s
  end.
(* 308-313 *)
Definition set_meta (m : metas) (name : str) (value : option str) : metas :=
  if str_eqb name (u "charset") then Metas (strip_ws value) (http_equiv m) (content m)
  else if str_eqb name (u "http-equiv") then Metas (charset m) value (content m)
  else if str_eqb name (u "content") then Metas (charset m) (http_equiv m) value
  else m.
Fixpoint attrs (fuel : nat) (pos : N) (s : str) (m : metas) : ares :=
  match fuel with
  | O => AFuel
  | S k =>
    match s with
    | [] => ANo false
    | ch :: t =>
      if negb (pos <? cap) then ANo false
      else if ch =? 62 then AGt t m
      else if ch =? 60 then ANo false
      else if ws ch || (ch =? 47) then attrs k (pos + 1) t m
      else match attr_one s with
           | Stop unclosed => ANo unclosed
           | Attr name value r => attrs k (moved pos s r) r (set_meta m name value)
           end
    end
  end.
(* encoding.py:315-327 what a complete meta tag declares *)
Definition declared (m : metas) : option str :=
  match (match charset m with Some ((_ :: _) as c) => norm_meta c | _ => None end) with
  | Some e => Some e
  | None =>
    match http_equiv m, content m with
    | Some h, Some ((_ :: _) as c) =>
      if str_eqb (blower h) (u "content-type") then
        match extract_charset c with Some ((_ :: _) as x) => norm_meta x | _ => None end
      else None
    | _, _ => None
    end
  end.

Inductive pres := Found (e : option str) | PFuel.
(* encoding.py:166-337 _prescan_for_meta_charset, from position [pos] with the bytes [s] left.  Fuel: every round consumes a byte. *)
Fixpoint prescan (fuel : nat) (pos nc : N) (s : str) : pres :=
  match fuel with
  | O => PFuel
  | S k =>
    match s with
    | [] => Found None
    | c :: t =>
      if negb ((pos <? cap) && (nc <? max_non_comment)) then Found None
      else if negb (c =? 60) then prescan k (pos + 1) (nc + 1) t
      else if starts (u "!--") t then
        match find (u "-->") (skipn 3 t) with
        | None => Found None
        | Some e => let r := skipn (3 + e + 3) t in prescan k (moved pos s r) nc r
        end
      else match t with
      | [] => prescan k (pos + 1) (nc + 1) t
      | d :: _ =>
        if d =? 47 then let '(pos, nc, r) := skip_tag pos nc None s in prescan k pos nc r
        else if negb (alpha_byte d) then prescan k (pos + 1) (nc + 1) t
        else if negb (str_eqb (blower (take_while alpha_byte t)) (u "meta")) then
          let '(pos, nc, r) := skip_tag pos nc None s in prescan k pos nc r
        else
          let s1 := drop_while alpha_byte t in
          match attrs (S (List.length s1)) (moved pos s s1) s1 (Metas None None None) with
          | AFuel => PFuel
          | AGt r m => match declared m with
                       | Some e => Found (Some e)
                       | None => prescan k (moved pos s r) (nc + N.of_nat (List.length s - List.length r)) r
                       end
          | ANo unclosed => if unclosed then prescan k (pos + 1 + 1) (nc + 1 + 1) (skipn 1 t) else prescan k (pos + 1) (nc + 1) t
          end
      end
    end
  end.
Definition prescan_all (d : str) : pres := prescan (S (List.length d)) 0 0 d.

(* encoding.py:340-354 sniff_html_encoding; None: the prescan ran out of fuel (excluded by C35_prescan_terminates) *)
Definition sniff (d : str) (transport : option str) : option (str * nat) :=
  match sniff_bom d with
  | Some r => Some r
  | None =>
    match (match transport with Some t => norm_str t | None => None end) with
    | Some e => Some (e, O)
    | None => match prescan_all d with
              | PFuel => None
              | Found (Some e) => Some (e, O)
              | Found None => Some (u "windows-1252", O)
              end
    end
  end.
(* encoding.py:357-406 decode_html: the codec that is called (with errors=replace), the bytes given to it, and the name returned *)
Definition codec_of (e : str) : str * str :=
  if str_eqb e (u "windows-1252") then (u "cp1252", u "windows-1252")
  else if str_eqb e (u "iso-8859-2") then (u "iso-8859-2", u "iso-8859-2")
  else if str_eqb e (u "euc-jp") then (u "euc_jp", u "euc-jp")
  else if str_eqb e (u "utf-16le") then (u "utf-16le", u "utf-16le")
  else if str_eqb e (u "utf-16be") then (u "utf-16be", u "utf-16be")
  else if str_eqb e (u "utf-16") then (u "utf-16", u "utf-16")
  else (u "utf-8", u "utf-8").
Definition decode_html (d : str) (transport : option str) : option (str * str * str) :=
  match sniff d transport with
  | None => None
  | Some (e, n) =>
    let '(e, n) := if in_strs e [u "utf-8"; u "windows-1252"; u "iso-8859-2"; u "euc-jp"; u "utf-16"; u "utf-16le"; u "utf-16be"] then (e, n) else (u "windows-1252", O) in
    let payload := match n with O => d | _ => skipn n d end in
    let '(codec, name) := codec_of e in Some (codec, name, payload)
  end.
