(* C67: the tags of tables open and close what the HTML standard says.  C68: what comes of them does not depend on the order of a Python set.
   table_start and table_end are the parser (TableModel.v), by_standard the standard's insertion modes (TableSpec.v).  Both give the stack of open elements, the list of
   active formatting elements, and the elements made, each with the stack its parent is on top of. *)
From Coq Require Import List Arith Bool String Lia.
From Verif Require Import Str StrFacts.
From Verif Require Import AaaModel GuardModel CloseModel CloseSpec CloseProofs1 CloseProofs2 CloseProofs3 CloseProofs4 CloseProofs5 CloseProofs6 CloseProofs7 TableModel TableSpec TableProofs1 TableProofs2 TableProofs5 TableProofs6 TableProofs13 TableProofs14 TableProofs15.
Import ListNotations.
Open Scope string_scope. Open Scope list_scope. Open Scope nat_scope.

(* an order in which Python may go through {"tbody", "thead", "tfoot"} *)
Definition set_order (order : list str) : Prop := forall n, In n order <-> (n = u "tbody" \/ n = u "thead" \/ n = u "tfoot").
Lemma set_order_orders : forall o, set_order o -> orders o.
Proof.
  intros o O n. destruct (in_strs n section_names) eqn:S.
  - apply existsb_exists. exists n. split; [|apply str_eqb_refl]. apply O. exact (section_cases n S).
  - destruct (in_strs n o) eqn:I; [|reflexivity]. apply existsb_exists in I as (x & X & E). apply str_eqb_eq in E. subst x. apply O in X as [->|[->| ->]]; vm_compute in S; discriminate S.
Qed.
Lemma set_order_sections : forall o, set_order o -> section_order o.
Proof. intros o O. apply Forall_forall. intros n I. apply O in I as [->|[->| ->]]; reflexivity. Qed.
Example set_order_example : set_order (map u ["thead"; "tbody"; "tfoot"]).
Proof. intros n. cbn [map In]. split; [intros [H|[H|[H|[]]]]; auto|intros [H|[H|H]]; auto]. Qed.

(* Any history of tags of tables, with other elements opened and closed in between, from the moment the body is open: the standard gives an outcome (its rules do not
   loop), and the parser makes the same elements in the same places and has the same elements open.  Partial: ok_tag leaves out the cases of the _refuted theorems below *)
Theorem C67_history_partial : forall quirks order es, set_order order -> ok_events quirks es begun ->
  exists s p m, by_standard quirks es begun = Some (s, m) /\ by_parser quirks order es parser_begun = (p, m) /\ sk p = sst s.
Proof.
  intros q o es O K. destruct (follows_history q o es begun parser_begun (set_order_orders o O) (tinv_begun q) K) as (s & p & m & A & B & I & _). exists s, p, m. split; [exact A|]. split; [exact B|]. exact (t_same _ _ _ I).
Qed.
Print Assumptions C67_history_partial.
(* the list of active formatting elements is the standard's too.  Partial: also without the cases of ok_marks *)
Theorem C67_formatting_partial : forall quirks order es, set_order order -> ok_events quirks es begun -> all_marks quirks es begun = true ->
  exists s p m, by_standard quirks es begun = Some (s, m) /\ by_parser quirks order es parser_begun = (p, m) /\ sk p = sst s /\ fm p = sfm s.
Proof.
  intros q o es O K M. destruct (follows_history q o es begun parser_begun (set_order_orders o O) (tinv_begun q) K) as (s & p & m & A & B & I & F). exists s, p, m. split; [exact A|]. split; [exact B|].
  split; [exact (t_same _ _ _ I)|]. symmetry. exact (F eq_refl M).
Qed.
Print Assumptions C67_formatting_partial.
(* the parser keeps no insertion mode: along such a history it is always what the open elements say *)
Theorem C67_modes_partial : forall quirks order es s p m, set_order order -> ok_events quirks es begun -> by_standard quirks es begun = Some (s, m) -> by_parser quirks order es parser_begun = (p, m) ->
  md s = reset (sk p).
Proof.
  intros q o es s p m O K A B. destruct (follows_history q o es begun parser_begun (set_order_orders o O) (tinv_begun q) K) as (s' & p' & m' & A' & B' & I & _). rewrite A in A'. rewrite B in B'. injection A' as <- <-. injection B' as <-.
  rewrite (t_same _ _ _ I). exact (t_mode _ _ _ I).
Qed.
Print Assumptions C67_modes_partial.

(* Cells are in rows, rows in sections, sections, captions and column groups in tables, columns in column groups: of every HTML element a start tag makes while a table is
   open, on any stack at all *)
Definition parents_of (n : str) : list string :=
  if one_of ["td"; "th"] n then ["tr"] else if one_of ["tr"] n then ["tbody"; "thead"; "tfoot"] else if one_of ["col"] n then ["colgroup"] else ["table"].
Theorem C67_parents : forall quirks order n self_closing s e below, set_order order -> existsb (named (u "table")) (sk s) = true -> (forall x, In x (sk s) -> named (u "table") x = true -> html x = true) ->
  one_of ten n = true -> In (e, below) (snd (table_start quirks order n self_closing s)) -> html e = true -> one_of ["caption"; "col"; "colgroup"; "tbody"; "td"; "tfoot"; "th"; "thead"; "tr"] (en e) = true ->
  exists parent rest, below = parent :: rest /\ one_of (parents_of (en e)) (en parent) = true.
Proof.
  intros q o n sc s e b O P Q N I H E. pose proof (housed_start q o n sc s (set_order_sections o O) (conj P Q) N) as F. rewrite Forall_forall in F. specialize (F _ I H E). cbn [fst snd] in F. destruct b as [|p r]; [contradiction|]. exists p, r. split; [reflexivity|exact F].
Qed.
Print Assumptions C67_parents.
(* and of every element of a table that is open, along a history *)
Theorem C67_nesting_partial : forall quirks order es s p m above e below, set_order order -> ok_events quirks es begun -> by_standard quirks es begun = Some (s, m) -> by_parser quirks order es parser_begun = (p, m) ->
  sk p = above ++ e :: below -> html e = true -> one_of ["caption"; "col"; "colgroup"; "tbody"; "td"; "tfoot"; "th"; "thead"; "tr"] (en e) = true ->
  exists parent rest, below = parent :: rest /\ html parent = true /\ one_of (parents_of (en e)) (en parent) = true.
Proof.
  intros q o es s p m a e b O K A B E H N. destruct (follows_history q o es begun parser_begun (set_order_orders o O) (tinv_begun q) K) as (s' & p' & m' & A' & B' & I & _). rewrite A in A'. rewrite B in B'. injection A' as <- <-. injection B' as <-.
  rewrite (t_same _ _ _ I) in E. destruct (shaped_base _ _ (t_shape _ _ _ I)) as (c & k & Ek & C & Bs & _). rewrite Ek in E. clear - C Bs E H N.
  assert (content e = true -> False) as NC. { intros X. pose proof (content_html e X H) as Y. unfold one_of in N. rewrite (in_sub _ _ N) in Y by (vm_compute; reflexivity). discriminate Y. }
  assert (forall c k, all_content c -> (forall a, k = a ++ e :: b -> exists parent rest, b = parent :: rest /\ html parent = true /\ one_of (parents_of (en e)) (en parent) = true) ->
    forall a, c ++ k = a ++ e :: b -> exists parent rest, b = parent :: rest /\ html parent = true /\ one_of (parents_of (en e)) (en parent) = true) as Over.
  { clear - NC. intros c k C G. induction C as [|x c Cx C IH]; intros a E; [exact (G a E)|]. cbn [app] in E. destruct a as [|y a]; cbn [app] in E.
    - injection E as -> _. exfalso. exact (NC Cx).
    - injection E as _ E. exact (IH a E). }
  refine (Over c k C _ a E). clear a c C E. induction Bs as [|s c k I C Bs IH H0 P W]; intros a E.
  - exfalso. destruct a as [|y a]; cbn [app body_open] in E.
    + injection E as <- _. vm_compute in N. discriminate N.
    + injection E as _ E. destruct a as [|z a]; cbn [app] in E; [injection E as <- _; vm_compute in N; discriminate N|]. injection E as _ E. destruct a; discriminate E.
  - pose proof (Over c k C IH) as Next. segs I;
    repeat match type of E with _ :: _ = ?a ++ e :: b => destruct a as [|? a]; cbn [app] in E; [injection E as <- <-; try (vm_compute in N; discriminate N); eexists _, _; repeat split; reflexivity|injection E as _ E] end;
    exact (Next _ E).
Qed.
Print Assumptions C67_nesting_partial.

(* the order of the set: while a table is open, no tag but col and colgroup depends on it, on any stack; and along a history none does *)
Theorem C68_order_partial : forall quirks order order' n self_closing s, set_order order -> set_order order' -> existsb (named (u "table")) (sk s) = true -> (forall x, In x (sk s) -> named (u "table") x = true -> html x = true) ->
  one_of ten n = true -> one_of ["col"; "colgroup"] n = false -> table_start quirks order n self_closing s = table_start quirks order' n self_closing s.
Proof. intros q o o' n sc s O O' P Q N C. apply any_order; try assumption; try (apply set_order_sections; assumption). exact (conj P Q). Qed.
Print Assumptions C68_order_partial.
Theorem C68_history_partial : forall quirks order order' es, set_order order -> set_order order' -> ok_events quirks es begun ->
  sk (fst (by_parser quirks order es parser_begun)) = sk (fst (by_parser quirks order' es parser_begun)) /\ snd (by_parser quirks order es parser_begun) = snd (by_parser quirks order' es parser_begun).
Proof.
  intros q o o' es O O' K. destruct (C67_history_partial q o es O K) as (s & p & m & A & B & C). destruct (C67_history_partial q o' es O' K) as (s' & p' & m' & A' & B' & C'). rewrite B, B'. rewrite A in A'. injection A' as <- <-. cbn [fst snd]. split; [congruence|reflexivity].
Qed.
Print Assumptions C68_history_partial.

(* ---- a history that meets the hypotheses:
   <div><table><caption>a<b>b</b></caption><col><col><tr><td>c<p>d<table><tr><th>e</table><td>f<svg><td></svg><tr><tfoot><td>g</tbody></tfoot></table> ---- *)
Definition st (n : string) : event := Tag (StartTag (u n) false).
Definition et (n : string) : event := Tag (EndTag (u n)).
Definition h (n : string) : el := El (u n) Html false.
Definition g (n : string) : el := El (u n) Svg false.
Definition on (above : stack) (below : list string) (f : list mark) : event := Content (above ++ map h below ++ body_open) f false.
Definition row : list string := ["td"; "tr"; "tbody"; "table"; "div"].
Definition history : list event :=
  [on [h "div"] [] []; st "table"; st "caption"; on [h "b"] ["caption"; "table"; "div"] [Entry 1; Marker]; on [] ["caption"; "table"; "div"] [Marker]; et "caption";
   st "col"; st "col"; Leave_group; st "tr"; st "td"; on [h "p"] row [Marker]; st "table"; st "tr"; st "th"; et "table"; et "td"; st "td";
   on [g "svg"] row [Marker]; st "td"; on [] row [Marker]; st "tr"; st "tfoot"; st "td"; et "tbody"; et "tfoot"; et "table"].
Ltac meets :=
  cbn [history app ok_events];
  repeat match goal with
  | |- _ /\ _ => split
  | |- True => exact I
  | |- ok_event (st _) _ => split; vm_compute; reflexivity
  | |- ok_event (et _) _ => split; vm_compute; reflexivity
  | |- ok_event Leave_group _ => vm_compute; reflexivity
  | |- match std_event ?q ?e ?s with _ => _ end => let v := eval vm_compute in (std_event q e s) in change (std_event q e s) with v; cbv iota beta; cbn [ok_events]
  | |- ok_event (on ?a ?b ?f) ?s => split; [vm_compute; discriminate|]; exists a, (map h b ++ body_open); split; [reflexivity|]; split; [vm_compute; reflexivity|];
      split; [vm_compute; repeat constructor|]; split; cbn; repeat split; intros; (reflexivity || discriminate || (vm_compute in *; congruence))
  end.
Example C67_history_example : ok_events false history begun /\ all_marks false history begun = true /\
  (exists s m, by_standard false history begun = Some (s, m) /\ sst s = [h "div"; h "body"; h "html"] /\ map (fun x => en (fst x)) m = map u ["table"; "caption"; "colgroup"; "col"; "col"; "tbody"; "tr"; "td"; "table"; "tbody"; "tr"; "th"; "td"; "td"; "tr"; "tfoot"; "tr"; "td"]).
Proof.
  split; [|split; [vm_compute; reflexivity|]].
  - unfold history. meets.
  - eexists _, _. split; [vm_compute; reflexivity|]. split; reflexivity.
Qed.
Print Assumptions C67_history_example.
(* a stack C67_parents and C68_order speak of *)
Example C67_parents_example : snd (table_start false (map u ["tbody"; "thead"; "tfoot"]) (u "td") false (TableModel.St (map h ["p"; "table"; "body"; "html"]) false [])) =
  [(h "tbody", map h ["table"; "body"; "html"]); (h "tr", map h ["tbody"; "table"; "body"; "html"]); (h "td", map h ["tr"; "tbody"; "table"; "body"; "html"])].
Proof. vm_compute. reflexivity. Qed.

(* ---- where the parser does not follow the standard ---- *)
Fixpoint fair (es : list event) (s : state) : Prop :=
  match es with
  | [] => True
  | e :: es => match e with Tag t => one_of ten (tag_of t) = true | _ => ok_event e s end /\ match std_event false e s with Some (s, _) => fair es s | None => False end
  end.
Definition any : list str := map u ["tbody"; "thead"; "tfoot"].
Definition deviates (es : list event) : Prop :=
  fair es begun /\ match by_standard false es begun with Some (s, m) => (sst s, m) <> (sk (fst (by_parser false any es parser_begun)), snd (by_parser false any es parser_begun)) | None => False end.
Definition marks_deviate (es : list event) : Prop :=
  fair es begun /\ match by_standard false es begun with Some (s, _) => sst s = sk (fst (by_parser false any es parser_begun)) /\ sfm s <> fm (fst (by_parser false any es parser_begun)) | None => False end.
Ltac fairly :=
  cbn [fair];
  repeat match goal with
  | |- _ /\ _ => split
  | |- True => exact I
  | |- match st _ with _ => _ end => vm_compute; reflexivity
  | |- match et _ with _ => _ end => vm_compute; reflexivity
  | |- ok_event Leave_group _ => vm_compute; reflexivity
  | |- match Leave_group with _ => _ end => vm_compute; reflexivity
  | |- match std_event ?q ?e ?s with _ => _ end => let v := eval vm_compute in (std_event q e s) in change (std_event q e s) with v; cbv iota beta; cbn [fair]
  | |- match on ?a ?b ?f with _ => _ end => split; [vm_compute; discriminate|]; exists a, (map h b ++ body_open); split; [reflexivity|]; split; [vm_compute; reflexivity|];
      split; [vm_compute; repeat constructor|]; split; cbn; repeat split; intros; (reflexivity || discriminate || (vm_compute in *; congruence))
  end.
Ltac deviation := split; [fairly|vm_compute; discriminate].
Definition cell : list string := ["td"; "tr"; "tbody"; "table"].
(* <table><td><svg><desc></td>, <table><svg><desc></table>: the end tags are ignored *)
Theorem C67_end_points_refuted : deviates [st "table"; st "td"; on [g "desc"; g "svg"] cell [Marker]; et "td"] /\ deviates [st "table"; on [g "desc"; g "svg"] ["table"] []; et "table"].
Proof. split; deviation. Qed.
(* <table><td><svg><desc><table>: the table around is closed *)
Theorem C67_table_in_point_refuted : deviates [st "table"; st "td"; on [g "desc"; g "svg"] cell [Marker]; st "table"].
Proof. deviation. Qed.
(* <svg><desc><p><td>, where no table is open: everything is closed, and a cell is made in the root element *)
Theorem C67_cell_without_table_refuted : deviates [on [h "p"; g "desc"; g "svg"] [] []; st "td"].
Proof. deviation. Qed.
(* <table><tr><svg><desc><td>: another section and row are made *)
Theorem C67_row_with_point_refuted : deviates [st "table"; st "tr"; on [g "desc"; g "svg"] ["tr"; "tbody"; "table"] []; st "td"].
Proof. deviation. Qed.
(* <table><colgroup></col><col>: the column group is closed by </col> *)
Theorem C67_col_end_refuted : deviates [st "table"; st "colgroup"; et "col"].
Proof. deviation. Qed.
(* <table><caption><table><td><select></caption>: the end tag, which is to be ignored, closes the select *)
Theorem C67_select_refuted : deviates [st "table"; st "caption"; st "table"; st "td"; on [h "select"] (cell ++ ["caption"; "table"]) [Marker; Marker]; et "caption"].
Proof. deviation. Qed.
(* <table><svg><tbody><desc><tr>: the SVG element is taken for a section *)
Theorem C67_foreign_section_refuted : deviates [st "table"; on [g "svg"] ["table"] []; st "tbody"; on [g "desc"; g "tbody"; g "svg"] ["table"] []; st "tr"].
Proof. deviation. Qed.
(* <table><td><svg><desc><colgroup>x: what follows is put in the column group *)
Theorem C67_colgroup_flag_refuted : deviates [st "table"; st "td"; on [g "desc"; g "svg"] cell [Marker]; st "colgroup"; Leave_group].
Proof. deviation. Qed.
(* <table><caption><b>a<tr>, </table>: the marker and the b stay in the list of active formatting elements, so what follows the table may be put in another b; </tr> with an integration point open in the cell *)
Theorem C67_formatting_refuted :
  marks_deviate [st "table"; st "caption"; on [h "b"] ["caption"; "table"] [Entry 1; Marker]; st "tr"] /\
  marks_deviate [st "table"; st "caption"; on [h "b"] ["caption"; "table"] [Entry 1; Marker]; et "table"] /\
  marks_deviate [st "table"; st "td"; on [g "desc"; g "svg"] cell [Marker]; et "tr"].
Proof. split; [|split]; (split; [fairly|vm_compute; split; [reflexivity|discriminate]]). Qed.
Print Assumptions C67_end_points_refuted.
Print Assumptions C67_table_in_point_refuted.
Print Assumptions C67_cell_without_table_refuted.
Print Assumptions C67_row_with_point_refuted.
Print Assumptions C67_col_end_refuted.
Print Assumptions C67_select_refuted.
Print Assumptions C67_foreign_section_refuted.
Print Assumptions C67_colgroup_flag_refuted.
Print Assumptions C67_formatting_refuted.
(* C68: <svg><tbody><thead><tbody><desc><caption>: which elements stay open, and so where the text that follows is put, depends on the order of the set *)
Theorem C68_order_refuted : exists order order' es, set_order order /\ set_order order' /\ fair es begun /\
  sk (fst (by_parser false order es parser_begun)) = [g "svg"; h "body"; h "html"] /\ sk (fst (by_parser false order' es parser_begun)) = [g "tbody"; g "svg"; h "body"; h "html"].
Proof.
  exists (map u ["thead"; "tbody"; "tfoot"]), (map u ["tbody"; "thead"; "tfoot"]), [on [g "svg"] [] []; st "tbody"; st "thead"; st "tbody"; on [g "desc"; g "tbody"; g "thead"; g "tbody"; g "svg"] [] []; st "caption"].
  split; [exact set_order_example|]. split; [intros n; cbn [map In]; split; [intros [H|[H|[H|[]]]]; auto|intros [H|[H|H]]; auto]|]. split; [|split; vm_compute; reflexivity]. fairly.
Qed.
Print Assumptions C68_order_refuted.
