(* MODEL of the acceptance of a frameset in place of a body: parser/engine.py:6600-6622 (_accept_frameset), 6648-6674 (_body_allows_frameset), 6676-6688
   (_foreign_subtree_allows_frameset), and 3371-3377, 3752-3760 (the flag _frameset_blocked).  The body is a tree of nodes with the attributes of its elements; what
   else builds the body is left open (event Body).  Left out: fragments whose context is html (6624-6646) and what the tags after a frameset do.
   No proofs in this file. *)
From Coq Require Import List Arith NArith Bool String.
From Verif Require Import Str.
From Verif Require GuardModel.
Import ListNotations.
Open Scope string_scope. Open Scope list_scope. Open Scope nat_scope.

(* dom/__init__.py:133-180 Node, 738-752 Text: comments and the like are nodes named #comment, #processing-instruction in the namespace html *)
Inductive node :=
| Text (data : option str)
| Elt (name : str) (namespace : option str) (attrs : list (str * option str)) (children : list node).
(* node.children, where None is like no children *)
Definition kids (n : node) : list node := match n with Text _ => [] | Elt _ _ _ c => c end.
(* scanner.py:3 SPACE *)
Definition space : str := [32; 9; 10; 12; 13]%N.
Definition html_ns (ns : option str) : bool := match ns with None => true | Some s => str_eqb s (u "html") end.
Definition parser_only (ns : option str) : bool := match ns with None => false | Some s => str_eqb s (u "justhtml-parser-only") end.
(* engine.py:247 _FRAMESET_BODY_OK_TAGS *)
Definition ok_tags : list str := map u ["div"; "figure"; "p"; "param"; "source"; "track"] ++ GuardModel.formatting_names.
(* engine.py:248-265 _FRAMESET_BLOCKING_START_TAGS *)
Definition blocking_tags : list str := map u ["applet"; "area"; "button"; "dd"; "dt"; "embed"; "iframe"; "input"; "keygen"; "listing"; "marquee"; "object"; "select"; "textarea"; "wbr"; "xmp"].

(* the three ways through the body of the two loops: return False, continue, pending.append(child) *)
Inductive way := Stop | Skip | Push.
(* engine.py:6649-6674, 6677-6688: pending, the last node first; the loop over the children of one node *)
Fixpoint scan (way_of : node -> way) (children pending : list node) : option (list node) :=
  match children with
  | [] => Some pending
  | c :: t => match way_of c with Stop => None | Skip => scan way_of t pending | Push => scan way_of t (c :: pending) end
  end.
(* the loop over pending; fuel counts the nodes that are popped, and running out of it does not happen (FramesetProofs.walk_spec) *)
Fixpoint walk (way_of : node -> way) (fuel : nat) (pending : list node) : bool :=
  match fuel, pending with
  | _, [] => true
  | O, _ => true
  | S f, n :: rest => match scan way_of (kids n) rest with None => false | Some p => walk way_of f p end
  end.
Fixpoint size (n : node) : nat := S (match n with Text _ => 0 | Elt _ _ _ c => (fix sum l := match l with [] => 0 | x :: t => size x + sum t end) c end).
Definition or_empty (d : option str) : str := match d with None => [] | Some s => s end.
Definition blank (chars : str) (d : option str) : bool := match strip_chars chars (or_empty d) with [] => true | _ => false end.

(* engine.py:6682-6687 *)
Definition foreign_way (c : node) : way := match c with Text d => if blank (space ++ [65533%N]) d then Skip else Stop | Elt _ _ _ _ => Push end.
(* engine.py:6676-6688 *)
Definition foreign_allows (n : node) : bool := walk foreign_way (size n) [n].
(* dict.get *)
Fixpoint get (k : str) (l : list (str * option str)) : option (option str) := match l with [] => None | (a, v) :: t => if str_eqb a k then Some v else get k t end.
(* engine.py:6665-6671, 3373-3374: isinstance(t, str) and t.lower() == "hidden" *)
Definition hidden (attrs : list (str * option str)) : bool := match get (u "type") attrs with Some (Some v) => str_eqb (lower v) (u "hidden") | _ => false end.
(* engine.py:6653-6673 *)
Definition body_way (c : node) : way :=
  match c with
  | Text d => if blank space d then Skip else Stop
  | Elt name ns attrs _ =>
    if parser_only ns then Stop
    else if negb (html_ns ns) then (if foreign_allows c then Skip else Stop)
    else if str_eqb name (u "input") then (if hidden attrs then Skip else Stop)
    else if negb (in_strs name ok_tags) then Stop
    else Push
  end.
(* engine.py:6648-6674 *)
Definition body_allows (n : node) : bool := walk body_way (size n) [n].

(* what the acceptance depends on; engine.py:1299-1311 the start values *)
Record state := St { fragment : bool; seen : bool; blocked : bool; explicit : bool; body : node }.
Definition empty_body : node := Elt (u "body") (Some (u "html")) [] [].
Definition start (fragment : bool) : state := St fragment false false false empty_body.
(* engine.py:6600-6622; None: not accepted *)
Definition accept (s : state) : option state :=
  if fragment s || seen s || blocked s || explicit s then None
  else if negb (body_allows (body s)) then None
  else Some (St (fragment s) true (blocked s) (explicit s) (match body s with Elt n ns a _ => Elt n ns a [] | t => t end)).
(* engine.py:3371-3377, 3752-3760 *)
Definition block (in_template : bool) (name : str) (attrs : list (str * option str)) (s : state) : state :=
  if negb in_template && negb (fragment s) && negb (seen s) && in_strs name blocking_tags && negb (str_eqb name (u "input") && hidden attrs)
  then St (fragment s) (seen s) true (explicit s) (body s) else s.
(* a start tag as far as these flags go (3319-3325, 3670-3679 body; 3382, 3788 frameset; a frameset that is not accepted is an ordinary tag), and any other change of the body *)
Inductive event := Tag (in_template : bool) (name : str) (attrs : list (str * option str)) | Body (n : node).
Definition step (s : state) (e : event) : state :=
  match e with
  | Body n => St (fragment s) (seen s) (blocked s) (explicit s) n
  | Tag in_template name attrs =>
    if str_eqb name (u "body") && negb (fragment s) && negb in_template then (if seen s then s else St (fragment s) (seen s) (blocked s) true (body s))
    else
      let s := block in_template name attrs s in
      if str_eqb name (u "frameset") && negb in_template then match accept s with Some s' => s' | None => s end else s
  end.
