(* C66: in the body, ordinary start and end tags open and close what the HTML standard says.
   start_tag and end_tag are the parser (CloseModel.v); std_start and std_end the standard (CloseSpec.v).  Both give the stack of open elements after the tag and the
   elements made, each with the stack its parent is on top of. *)
From Coq Require Import List Arith Bool String Lia.
From Verif Require Import Str StrFacts.
From Verif Require Import AaaModel GuardModel CloseModel CloseSpec CloseProofs1 CloseProofs2 CloseProofs3 CloseProofs4 CloseProofs5 CloseProofs6 CloseProofs7.
Import ListNotations.
Open Scope string_scope. Open Scope list_scope. Open Scope nat_scope.

(* Any history of ordinary tags, with formatting elements opened, closed and moved in between, from the moment the body is open: the parser makes the same elements in the
   same places and has the same elements open as the standard.  Partial: ok_start and ok_end leave out the cases of the _refuted theorems below *)
Theorem C66_history_partial : forall quirks es, ok_events es body_open -> by_parser quirks es body_open = by_standard es body_open.
Proof. intros quirks es K. exact (proj1 (run_follows quirks es body_open inv_start K)). Qed.
Print Assumptions C66_history_partial.
(* one tag, on any stack such a history leads to *)
Theorem C66_start_partial : forall l quirks name encoded self_closing, reached l -> tag_name name = true -> ok_start name l = true ->
  start_tag quirks name encoded self_closing l = std_start name encoded self_closing l.
Proof. intros l q n c s R T K. apply tag_parts in T. destruct T. apply start_follows; [apply reached_inv; exact R|assumption|assumption|exact K]. Qed.
Print Assumptions C66_start_partial.
Theorem C66_end_partial : forall l name, reached l -> tag_name name = true -> ok_end name l = true -> end_tag name l = std_end name l.
Proof. intros l n R T K. apply tag_parts in T. destruct T. apply end_follows; [apply reached_inv; exact R|assumption|assumption|exact K]. Qed.
Print Assumptions C66_end_partial.

(* what is then true of the open elements: a paragraph holds no element that closes paragraphs *)
Theorem C66_paragraphs_partial : forall l above e below, reached l -> l = above ++ e :: below -> html e = true ->
  one_of (closes_p ++ ["h1"; "h2"; "h3"; "h4"; "h5"; "h6"; "li"; "dd"; "dt"]) (en e) = true -> in_scope (is "p") ["button"] below = false.
Proof.
  intros l a e b R -> H N. apply reached_inv in R. destruct R as [_ _ P _ _]. assert (nopara (e :: b)) as [K _] by (eapply nopara_suffix; [exists a; reflexivity|exact P]). apply K.
  unfold block, name_in. rewrite H. unfold one_of in N. rewrite (in_sub _ _ N p_closing) by (vm_compute; reflexivity). reflexivity.
Qed.
Print Assumptions C66_paragraphs_partial.
(* HTML elements are in HTML elements or at integration points, and foreign elements never have the names that break out of foreign content *)
Theorem C66_foreign_partial : forall l, reached l -> well_placed l /\ Forall (fun e => html e = false -> breaks_out (en e) = false) l.
Proof.
  intros l R. apply reached_inv in R. split; [apply chained_well_placed; exact (i_chain l R)|]. eapply Forall_impl; [|exact (i_el l R)]. intros e O F. rewrite <- breaks_same. exact (foreign_not e O F).
Qed.
Print Assumptions C66_foreign_partial.
(* no dd or dt is open in another with no dl and no end of scope between; html and body stay open *)
Theorem C66_definitions_partial : forall l above e below, reached l -> l = above ++ e :: below -> definition e = true ->
  reaches definition (fun x => html x && ends_scope ["dl"] x) below = false.
Proof. intros l a e b R -> D. apply reached_inv in R. destruct R as [_ _ _ P _]. assert (noitem (e :: b)) as [K _] by (eapply noitem_suffix; [exists a; reflexivity|exact P]). exact (K D). Qed.
Print Assumptions C66_definitions_partial.
Theorem C66_body_stays_partial : forall l, reached l -> exists above, l = above ++ body_open.
Proof. intros l R. apply reached_inv in R. exact (i_bottom l R). Qed.
Print Assumptions C66_body_stays_partial.
(* the search used for deep stacks finds what the plain one finds, on every stack *)
Theorem C66_deep_search : forall name bounds l, find_deep name bounds l = find_before name bounds l.
Proof. exact deep_shallow. Qed.
Print Assumptions C66_deep_search.

(* ---- a history that meets the hypotheses:
   <div><p>a<b>b<ul><li>c<p>d<li>e</ul><h1>f<h2>g</h3><dl><dt>h<dd>i</dl><svg><g><foreignobject><p>j<div>k</div></svg>l</p><li>m<ruby>n<rt>o<rp>p</ruby></div></p><section><math><mi><span> ---- *)
Definition st (n : string) : event := Start (u n) false false.
Definition et (n : string) : event := End (u n).
Definition h (n : string) : el := El (u n) Html false.
Definition tags_1 : list event := [st "div"; st "p"].
Definition tags_2 : list event := [st "ul"; st "li"; st "p"; st "li"; et "ul"; st "h1"; st "h2"; et "h3"; st "dl"; st "dt"; st "dd"; et "dl"; st "svg"; st "g"; st "foreignobject"; st "p"; st "div"; et "div"; et "svg"; et "p"; st "li"; st "ruby"; st "rt"; st "rp"; et "ruby"; et "div"; et "p"; st "section"; st "math"; st "mi"; st "span"].
Definition history : list event := tags_1 ++ [Reformat [h "b"; h "p"; h "div"; h "body"; h "html"]] ++ tags_2.
Example C66_history_example : ok_events history body_open /\
  fst (by_standard history body_open) = [h "span"; El (u "mi") Math false; El (u "math") Math false; h "section"; h "body"; h "html"] /\
  List.length (snd (by_standard history body_open)) = 26.
Proof.
  split; [|split; vm_compute; reflexivity]. unfold history, tags_1, tags_2. cbn [app ok_events].
  repeat match goal with
  | |- _ /\ _ => split
  | |- True => exact I
  | |- ok_event (Reformat _) _ => exists [h "p"; h "div"], [h "b"; h "p"; h "div"]; split; [vm_compute; reflexivity|]; split; [reflexivity|]; split; [vm_compute; reflexivity|]; cbn; repeat split; intros; vm_compute; reflexivity
  | |- ok_event _ _ => split; vm_compute; reflexivity
  end.
Qed.
Print Assumptions C66_history_example.

(* ---- where the parser does not follow the standard ---- *)
Definition deviates (es : list event) : Prop :=
  Forall (fun e => match e with Start n _ _ | End n => tag_name n = true | Reformat _ => False end) es /\ fst (by_parser false es body_open) <> fst (by_standard es body_open).
Ltac deviation := split; [repeat constructor; vm_compute; reflexivity|vm_compute; discriminate].
(* <dl><dd><section><dd>: the section is closed.  <dl><dd>a<ol><li><dd>, <dl><dd><svg><desc><dd> *)
Theorem C66_dd_start_refuted : deviates [st "dl"; st "dd"; st "section"; st "dd"] /\ deviates [st "dl"; st "dd"; st "ol"; st "li"; st "dd"] /\ deviates [st "dl"; st "dd"; st "svg"; st "desc"; st "dd"].
Proof. split; [|split]; deviation. Qed.
(* <dl><dd>a<dl></dd>: the end tag is ignored *)
Theorem C66_dd_end_refuted : deviates [st "dl"; st "dd"; st "dl"; et "dd"].
Proof. deviation. Qed.
(* <button><object><button>: the object is closed; <svg><button><desc><button>: the SVG element is closed *)
Theorem C66_button_refuted : deviates [st "button"; st "object"; st "button"] /\ deviates [st "svg"; st "button"; st "desc"; st "button"].
Proof. split; deviation. Qed.
(* <ruby><p><rb>: the p stays open; <ruby><object><p><rt>: the p is closed *)
Theorem C66_ruby_refuted : deviates [st "ruby"; st "p"; st "rb"] /\ deviates [st "ruby"; st "object"; st "p"; st "rt"].
Proof. split; deviation. Qed.
(* <ul><li><svg><desc><li>: the SVG is closed; <ul><li><dialog><li>: the dialog is not *)
Theorem C66_li_refuted : deviates [st "ul"; st "li"; st "svg"; st "desc"; st "li"] /\ deviates [st "ul"; st "li"; st "dialog"; st "li"].
Proof. split; deviation. Qed.
(* <span><dialog></span> *)
Theorem C66_dialog_refuted : deviates [st "span"; st "dialog"; et "span"].
Proof. deviation. Qed.
(* <svg><desc><span></desc>: the SVG element is closed from inside HTML content; <audio><svg><desc><span></audio>; <div><math><annotation-xml></div> *)
Theorem C66_points_refuted : deviates [st "svg"; st "desc"; st "span"; et "desc"] /\ deviates [st "audio"; st "svg"; st "desc"; st "span"; et "audio"] /\ deviates [st "div"; st "math"; st "annotation-xml"; et "div"].
Proof. split; [|split]; deviation. Qed.
Print Assumptions C66_dd_start_refuted.
Print Assumptions C66_dd_end_refuted.
Print Assumptions C66_button_refuted.
Print Assumptions C66_ruby_refuted.
Print Assumptions C66_li_refuted.
Print Assumptions C66_dialog_refuted.
Print Assumptions C66_points_refuted.
