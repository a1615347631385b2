(* SPECIFICATION: which bodies a frameset may replace.  Independent of the two loops of the engine. *)
From Coq Require Import List NArith Bool String.
From Verif Require Import Str FramesetModel.
Import ListNotations.
Open Scope string_scope. Open Scope list_scope.

(* m is below n, by way of elements of the given kind *)
Inductive below (through : node -> Prop) (n : node) : node -> Prop :=
| child c : In c (kids n) -> below through n c
| deeper m c : below through n m -> through m -> In c (kids m) -> below through n c.
Definition anything (_ : node) : Prop := True.
Definition only (chars : str) (d : option str) : Prop := forall s c, d = Some s -> In c s -> In c chars.
Definition in_html (ns : option str) : Prop := ns = None \/ ns = Some (u "html").
Definition foreign (n : node) : Prop := exists name ns attrs c, n = Elt name (Some ns) attrs c /\ ns <> u "html" /\ ns <> u "justhtml-parser-only".
Definition hidden_input (n : node) : Prop := exists ns attrs c v, n = Elt (u "input") ns attrs c /\ in_html ns /\ get (u "type") attrs = Some (Some v) /\ lower v = u "hidden".
Definition harmless_names : list str := map u ["div"; "figure"; "p"; "param"; "source"; "track"; "a"; "b"; "big"; "code"; "em"; "font"; "i"; "nobr"; "s"; "small"; "strike"; "strong"; "tt"; "u"].
Definition plain (n : node) : Prop := exists name ns attrs c, n = Elt name ns attrs c /\ in_html ns /\ In name harmless_names.
(* a node the engine lets a frameset replace *)
Definition replaceable (n : node) : Prop :=
  (exists d, n = Text d /\ only [32; 9; 10; 12; 13]%N d)
  \/ plain n
  \/ hidden_input n
  \/ (foreign n /\ forall d, below anything n (Text d) -> only [32; 9; 10; 12; 13; 65533]%N d).

(* the HTML standard, 13.2.6.4.7 "in body": the start tags that set the frameset-ok flag to "not ok"; image becomes img *)
Definition not_ok_names : list str := map u ["pre"; "listing"; "li"; "dd"; "dt"; "button"; "applet"; "marquee"; "object"; "table"; "area"; "br"; "embed"; "img"; "keygen"; "wbr"; "hr"; "textarea"; "xmp"; "iframe"; "select"].
(* nothing in the tree has cleared the flag: no character but white space, no such element, no input that is not hidden *)
Definition flag_ok (n : node) : Prop := forall m, below anything n m ->
  match m with
  | Text d => only [32; 9; 10; 12; 13]%N d
  | Elt name ns attrs c => in_html ns -> ~ In name not_ok_names /\ (name = u "input" -> hidden_input m)
  end.
