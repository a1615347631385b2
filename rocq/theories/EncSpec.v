(* SPECIFICATION for byte decoding (C34, C35): the labels and what they name, written as one table; the supported names; how a document may start before its meta tag. *)
From Verif Require Import Str.
Open Scope N_scope.

(* the names decode_html may report *)
Definition supported : list str :=
  [u "utf-8"; u "windows-1252"; u "iso-8859-2"; u "euc-jp"; u "utf-16"; u "utf-16le"; u "utf-16be"].
(* label (lower case, no surrounding space), encoding *)
Definition labels : list (str * str) :=
  [ (u "utf-8", u "utf-8"); (u "utf8", u "utf-8");
    (u "utf-7", u "windows-1252"); (u "utf7", u "windows-1252"); (u "x-utf-7", u "windows-1252");
    (u "iso-8859-1", u "windows-1252"); (u "iso8859-1", u "windows-1252"); (u "latin1", u "windows-1252"); (u "latin-1", u "windows-1252");
    (u "l1", u "windows-1252"); (u "cp819", u "windows-1252"); (u "ibm819", u "windows-1252");
    (u "windows-1252", u "windows-1252"); (u "windows1252", u "windows-1252"); (u "cp1252", u "windows-1252"); (u "x-cp1252", u "windows-1252");
    (u "iso-8859-2", u "iso-8859-2"); (u "iso8859-2", u "iso-8859-2"); (u "latin2", u "iso-8859-2"); (u "latin-2", u "iso-8859-2");
    (u "euc-jp", u "euc-jp"); (u "eucjp", u "euc-jp");
    (u "utf-16", u "utf-16"); (u "utf16", u "utf-16"); (u "utf-16le", u "utf-16le"); (u "utf16le", u "utf-16le"); (u "utf-16be", u "utf-16be"); (u "utf16be", u "utf-16be") ].
(* the encoding a label names *)
Definition names (label e : str) : Prop := In (lower (strip label), e) labels.
(* the encoding a label in a meta tag names: UTF-16 there means UTF-8 *)
Definition meta_names (label e : str) : Prop :=
  exists e', names label e' /\ e = (if in_strs e' [u "utf-16"; u "utf-16le"; u "utf-16be"] then u "utf-8" else e').
(* the ASCII bytes of a label: what bytes.decode(ascii, ignore) keeps *)
Definition ascii_part (l : str) : str := filter (fun b => b <? 128) l.
(* byte-order marks *)
Inductive bom : str -> str -> Prop :=
| Bom8 : bom [239; 187; 191] (u "utf-8")
| BomLE : bom [255; 254] (u "utf-16le")
| BomBE : bom [254; 255] (u "utf-16be").
Definition has_bom (d : str) : Prop := exists m e t, bom m e /\ d = m ++ t.
(* what may come before the meta tag: text without a tag, and comments *)
Inductive piece := Text (t : str) | Comment (c : str).
Definition piece_bytes (p : piece) : str := match p with Text t => t | Comment c => u "<!--" ++ c ++ u "-->" end.
Definition piece_ok (p : piece) : Prop :=
  match p with
  | Text t => ~ In 60 t
  | Comment c => forall x y, c ++ u "--" <> x ++ u "-->" ++ y
  end.
Definition bytes_of (ps : list piece) : str := List.concat (map piece_bytes ps).
Definition text_size (ps : list piece) : nat := list_sum (map (fun p => match p with Text t => List.length t | Comment _ => O end) ps).
(* the bytes of a label in a meta tag *)
Definition label_byte (b : N) : bool := (32 <? b) && (b <? 127) && negb (mem b [34; 39; 60; 62; 59]).
(* the usual ways of writing a meta tag that declares the label l *)
Inductive meta_tag (l : str) : str -> Prop :=
| MetaPlain : meta_tag l (u "<meta charset=" ++ l ++ u ">")
| MetaQuoted q close : In q [34; 39] -> In close [u ">"; u "/>"; u " />"] -> meta_tag l (u "<meta charset=" ++ [q] ++ l ++ [q] ++ close)
| MetaHttp close : In close [u ">"; u "/>"; u " />"] -> meta_tag l (u "<meta http-equiv=""Content-Type"" content=""text/html; charset=" ++ l ++ [34] ++ close).
(* Python's codec for each supported name *)
Definition python_codec : list (str * str) :=
  [ (u "utf-8", u "utf-8"); (u "windows-1252", u "cp1252"); (u "iso-8859-2", u "iso-8859-2"); (u "euc-jp", u "euc_jp");
    (u "utf-16", u "utf-16"); (u "utf-16le", u "utf-16le"); (u "utf-16be", u "utf-16be") ].
