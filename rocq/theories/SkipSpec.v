(* Source text of elements in SVG and MathML.  Independent of the parser.  No proofs in this file. *)
From Coq Require Import NArith List Bool String.
From Verif Require Import Str.
Import ListNotations.
Open Scope list_scope.
Open Scope N_scope.

(* What can stand inside an svg or math element. *)
Inductive piece :=
  | Chars (s : str)
  | Comment (s : str)
  | Cdata (s : str)
  | Elem (name : str) (attrs : list (str * str)) (kids : list piece)
  | Empty (name : str) (attrs : list (str * str)).

Definition source_attrs (l : list (str * str)) : str := flat_map (fun a => [32] ++ fst a ++ [61; 34] ++ snd a ++ [34]) l.
Fixpoint source (p : piece) : str :=
  match p with
  | Chars s => s
  | Comment s => u "<!--" ++ s ++ u "-->"
  | Cdata s => u "<![CDATA[" ++ s ++ u "]]>"
  | Elem n a kids => [60] ++ n ++ source_attrs a ++ [62] ++ flat_map source kids ++ [60; 47] ++ n ++ [62]
  | Empty n a => [60] ++ n ++ source_attrs a ++ [47; 62]
  end.
Definition sources (l : list piece) : str := flat_map source l.

(* Names a tag can spell, attributes and text that mean what they say. *)
Definition is_name (n : str) : bool :=
  match n with c :: _ => is_alpha_ascii c | [] => false end && forallb (fun c => negb (existsb (N.eqb c) [9; 10; 12; 13; 32; 47; 62; 0])) n.
Definition attribute_char (c : N) : bool := negb (existsb (N.eqb c) [9; 10; 12; 13; 32; 34; 39; 47; 60; 61; 62; 0]).
Definition good_attr (a : str * str) : bool := negb (str_eqb (fst a) []) && forallb attribute_char (fst a) && negb (existsb (N.eqb 34) (snd a)).
(* text of a comment by XML's rule, which HTML reads the same way *)
Definition good_comment (s : str) : bool := negb (contains (u "--") s) && negb (starts [62] s) && negb (starts [45] s) && negb (ends [45] s).
Fixpoint good (p : piece) : bool :=
  match p with
  | Chars s => negb (existsb (N.eqb 60) s)
  | Comment s => good_comment s
  | Cdata s => negb (contains (u "]]>") s)
  | Elem n a kids => is_name n && forallb good_attr a && forallb good kids
  | Empty n a => is_name n && forallb good_attr a
  end.
(* What the scan of the source copes with: no greater-than sign in an attribute value, no less-than sign in a comment... *)
Definition plain_attr (a : str * str) : bool := negb (existsb (N.eqb 62) (snd a)).
(* ... and none of the elements whose tags mean something else: those that leave foreign content, parts of tables, elements whose content is text. *)
Definition special_names : list str := map u
  ["b"; "big"; "blockquote"; "body"; "br"; "center"; "code"; "dd"; "div"; "dl"; "dt"; "em"; "embed"; "h1"; "h2"; "h3"; "h4"; "h5"; "h6"; "head"; "hr"; "i"; "img"; "li"; "listing"; "menu"; "meta"; "nobr"; "ol"; "p"; "pre"; "ruby"; "s"; "small"; "span"; "strong"; "strike"; "sub"; "sup"; "table"; "tt"; "u"; "ul"; "var";
   "annotation-xml"; "desc"; "font"; "foreignobject"; "title"; "caption"; "tbody"; "td"; "tfoot"; "th"; "thead"; "tr"; "textarea"; "plaintext"; "script"; "style"; "iframe"; "noembed"; "noframes"; "noscript"; "xmp"]%string.
Definition plain_name (n : str) : bool := negb (existsb (str_eqb (alow n)) special_names).
Fixpoint plain (root : str) (p : piece) : bool :=
  match p with
  | Chars _ | Cdata _ => true
  | Comment s => negb (existsb (N.eqb 60) s)
  | Elem n a kids => (str_eqb (alow n) root || plain_name n) && forallb plain_attr a && forallb (plain root) kids
  | Empty n a => negb (str_eqb (alow n) root) && plain_name n && forallb plain_attr a
  end.
(* The input has one of the two characters outside ASCII whose lower case is inside it: then the parser compares names with A-Z folded only. *)
Definition odd_letter (c : N) : bool := (c =? 304) || (c =? 8490).
Definition spaces (s : str) : bool := forallb (fun c => existsb (N.eqb c) [9; 10; 12; 13; 32]) s.
(* a frameset tag, in any letter case, after optional spaces *)
Definition frameset_next (s : str) : Prop := exists sp f r, s = (sp ++ f ++ r)%list /\ spaces sp = true /\ alow f = u "<frameset".
