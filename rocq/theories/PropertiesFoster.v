(* C69: text and elements met where a table may not hold them are put where the HTML standard says ("foster parenting"), and nothing is lost.
   code_run is the parser (FosterModel.v), standard_run the rules of the standard (FosterSpec.v), over histories of runs of text, start tags, comments, closing and reopening of elements. *)
From Coq Require Import List Arith Bool String Lia Permutation.
From Verif Require Import Str StrFacts.
From Verif Require Import FosterModel FosterSpec FosterProofs1 FosterProofs2 FosterProofs3 FosterProofs4 FosterProofs5.
Import ListNotations.
Open Scope string_scope. Open Scope list_scope. Open Scope nat_scope.

(* Any history from the moment the body is open: the same tree, the same elements open.  Partial: ok_run leaves out the cases of the _refuted theorems below; what C64 and C67 leave out *)
Theorem C69_history_partial : forall es, ok_events es begun -> tr (code_run es body_begun) = tree_of (standard_run es begun) /\ open (code_run es body_begun) = stack_of (standard_run es begun) /\
  todo (code_run es body_begun) = closed_formatting (standard_run es begun).
Proof. intros es O. destruct (run_events es begun 0 begun_good (Forall_nil _) O) as (k & E & _). change body_begun with (to_code begun 0). rewrite E. auto. Qed.
Print Assumptions C69_history_partial.
(* a table, section or row that is open holds no text but white space *)
Theorem C69_white_partial : forall es e s, ok_events es begun -> In e (open (code_run es body_begun)) -> table_part e = true -> In (Txt s) (ks (tr (code_run es body_begun)) (oid e)) -> s <> [] /\ forallb white s = true.
Proof.
  intros es e s O I T H. destruct (run_events es begun 0 begun_good (Forall_nil _) O) as (k & E & W & _). change body_begun with (to_code begun 0) in *. rewrite E in I, H. cbn [to_code tr open] in I, H.
  rewrite <- blank_white. apply (w_texts _ _ W e s I T). unfold txts. apply in_flat_map. exists (Txt s). split; [exact H|left; reflexivity].
Qed.
Print Assumptions C69_white_partial.
(* Whatever the history - any names, any text, any order: all the text of the input is in the tree, and nothing else ... *)
Theorem C69_nothing_lost : forall es, Permutation (flat_map (fun n => flat_map (fun i => match i with Txt s => s | Nod _ => [] end) (kids n)) (tr (code_run es body_begun)))
  (flat_map (fun e => match e with Run l => text_of l | _ => [] end) es).
Proof. intros es. destruct (run_keeps es body_begun begun_sound) as [_ P]. exact P. Qed.
Print Assumptions C69_nothing_lost.
(* ... and no node is in two places *)
Theorem C69_one_place : forall es, NoDup (flat_map (fun n => flat_map (fun i => match i with Nod k => [k] | Txt _ => [] end) (kids n)) (tr (code_run es body_begun))).
Proof. intros es. destruct (run_keeps es body_begun begun_sound) as [S _]. exact (s_once _ _ S). Qed.
Print Assumptions C69_one_place.

(* ---- a history that meets the hypotheses:
   a<table> x<y <tbody> <tr> &amp;<td>c < d</td><b>e< </b><!---->  <f<input type=hidden><img> <!---->, with an i to be reopened: g< </i><template>t<tr>u ---- *)
Definition same (s : string) : option (str * str) := Some (u s, u s).
Definition start (n : string) : event := Start (u n) true false false.
Definition history : list event :=
  [Run [same "a"]; start "table"; Run [same " x"; same "<"; same "y "]; start "tbody"; Run [same " "]; start "tr"; Run [Some (u " &amp;", u " &")]; start "td"; Run [same "c "; same "<"; same " d"]; Closed 1;
   start "b"; Run [same "e"; same "<"; same " "]; Closed 1; Comment; Run [same "  "; same "<f"]; Start (u "input") true true true; Start (u "img") true true false;
   Formatting [u "i"]; Run [same " "]; Comment; Run [same "g"; same "<"; same " "]; Closed 1; start "template"; Run [same "t"]; start "tr"; Run [same "u"]].
Ltac meets :=
  repeat match goal with
  | |- ok_events [] _ => exact I
  | |- ok_events (?e :: ?r) ?s => split; [|let v := eval vm_compute in (standard_event s e) in change (ok_events r v)]
  | |- ok_event (Run _) _ => split; [repeat constructor; discriminate|vm_compute; repeat split; intros; (congruence || auto)]
  | |- ok_event (Formatting _) _ => repeat constructor
  | |- ok_event Comment _ => exact I
  | |- ok_event _ _ => vm_compute; repeat split; intros; (congruence || auto 20)
  end.
Example C69_history_example : ok_events history begun /\
  let t := tree_of (standard_run history begun) in
  (* the body: a, x<y and the rest of what is not in a cell, elements in between, the table *)
  ks t 1 = [Txt (u "a x<y  &"); Nod 6; Txt (u "  <f"); Nod 9; Nod 11; Nod 2] /\ map (ks t) [2; 3; 4; 5; 6; 11] = [[Nod 3]; [Txt (u " "); Nod 4]; [Nod 5; Nod 7; Nod 8; Txt (u " "); Nod 10; Nod 12]; [Txt (u "c < d")]; [Txt (u "e< ")]; [Txt (u "g< ")]] /\
  (* the contents of the template *)
  ks t 13 = [Txt (u "t"); Nod 14; Txt (u "u")] /\ ks t 14 = [].
Proof. split; [unfold history; meets|]. vm_compute. repeat split; reflexivity. Qed.
Print Assumptions C69_history_example.

(* ---- where the parser does not follow the standard ---- *)
(* histories as above, but for the text of the last run, which may be any whose pieces are not empty *)
Definition deviates (before : list event) (l : list (option (str * str))) : Prop :=
  ok_events before begun /\ match stack_of (standard_run before begun) with e :: _ => ohtml e = true /\ one_of ["caption"; "template"] (oname e) = false | [] => False end /\
  tr (code_run (before ++ [Run l]) body_begun) <> tree_of (standard_run (before ++ [Run l]) begun).
Ltac deviation := split; [meets|split; [split; reflexivity|vm_compute; discriminate]].
(* <table>a< <tr>: the space after the < stays in the table, the rest is put in front of it *)
Theorem C69_space_after_refuted : deviates [start "table"] [same "a"; same "<"; same " "].
Proof. deviation. Qed.
(* <p><b></p><table> <3: the space stays in the table, the rest is put into a new b in front of it *)
Theorem C69_space_before_refuted : deviates [Formatting [u "b"]; start "table"] [same " "; same "<"; same "3"].
Proof. deviation. Qed.
(* <p><b></p><table>&#32;<tr>: white space written as a character reference opens a b in front of the table *)
Theorem C69_reference_refuted : deviates [Formatting [u "b"]; start "table"] [Some (u "&#32;", u " ")].
Proof. deviation. Qed.
(* <table> </>x: </> is no token, but it separates the space, which stays in the table, from the x, which is put in front of it *)
Theorem C69_nothing_between_refuted : deviates [start "table"] [same " "; None; same "x"].
Proof. deviation. Qed.
(* A fragment in the context of tbody, <tr>x: the parser has the context open and puts the x into the tr; in the standard only html is open below the tr, and the x comes after it *)
Theorem C69_fragment_refuted :
  let parser := Fst [Node [Nod 1] None; Node [Nod 2] (Some 0); Node [] (Some 1)] [Oel 2 (u "tr") true None; Oel 1 (u "tbody") true None; Oel 0 (u "#document-fragment") true None] [] 0 in
  let standard := State [Node [Nod 1] None; Node [] (Some 0)] [Oel 1 (u "tr") true None; Oel 0 (u "html") true None] [] in
  ks (tr (code_event parser (Run [same "x"]))) 2 = [Txt (u "x")] /\
  ks (tree_of (standard_event standard (Run [same "x"]))) 0 = [Nod 1; Txt (u "x")] /\ ks (tree_of (standard_event standard (Run [same "x"]))) 1 = [].
Proof. vm_compute. auto. Qed.
Print Assumptions C69_space_after_refuted.
Print Assumptions C69_space_before_refuted.
Print Assumptions C69_reference_refuted.
Print Assumptions C69_nothing_between_refuted.
Print Assumptions C69_fragment_refuted.
