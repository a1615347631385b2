(* C76: the default sanitizing engine opens and closes the same elements as the full parser, and so as the HTML standard.
   safe_start and safe_end are the default engine (ShortModel.v), start_tag and end_tag the full parser (CloseModel.v), std_start and std_end the standard (CloseSpec.v).
   Each gives the stack of open elements after the tag and the elements made, each with the stack its parent is on top of.
   What is left out, as in C66: formatting elements and when they are reconstructed, tables, select, forms, templates, framesets. *)
From Coq Require Import List Arith Bool String.
From Verif Require Import Str StrFacts SanModel SanDefaults AaaModel GuardModel CloseModel CloseSpec CloseProofs1 CloseProofs7 ShortModel ShortProofs.
Import ListNotations.
Open Scope string_scope. Open Scope list_scope. Open Scope nat_scope.

(* Any history of ordinary tags from the moment the body is open, with formatting elements opened, closed and moved in between: the default engine has the same elements
   open as the standard, and makes the same elements in the same places but for void elements of names the policy does not allow (they have no content and would be removed).
   Partial: the tags of ruby annotations (next theorems), and what C66 leaves out of ok_events. *)
Theorem C76_history_partial p scripting quirks es :
  p = default_policy \/ p = default_document_policy -> ok_events es body_open ->
  Forall (fun e => match e with Start n _ _ => ~ In n (map u ["rb"; "rp"; "rt"; "rtc"]) | _ => True end) es ->
  let mine := run (safe_start p scripting quirks) (safe_end p scripting) es body_open in
  let standard := by_standard es body_open in
  let kept := fun m => negb (html (fst m) && negb (in_strs (en (fst m)) (allowed_tags p)) && in_strs (en (fst m)) ActionModel.void_tags) in
  fst mine = fst standard /\ filter kept (snd mine) = filter kept (snd standard).
Proof.
  intros D K A. cbv zeta. assert (A' : Forall ordinary_event es).
  { eapply Forall_impl; [|exact A]. intros [n c s|n|l]; cbn [ordinary_event]; auto. intros H. destruct (in_strs n ruby_tags) eqn:E; [|reflexivity]. apply in_strs_In in E. contradiction. }
  destruct (history_same p scripting quirks D es body_open inv_start K A') as [E1 E2]. split; [exact E1|].
  assert (W : forall l, filter (kept p) l = filter (fun m => negb (html (fst m) && negb (in_strs (en (fst m)) (allowed_tags p)) && in_strs (en (fst m)) ActionModel.void_tags)) l).
  { intros l. apply filter_ext. intros m. unfold kept, void_unknown. rewrite andb_assoc. reflexivity. }
  rewrite <- !W. exact E2.
Qed.
(* One start tag, on any stack such a history leads to: the same as the full parser, with the short path or without; an element is not made only if it is void and not allowed. *)
Theorem C76_start_partial p scripting quirks name encoded self_closing l :
  p = default_policy \/ p = default_document_policy -> reached l -> ordinary name = true -> ~ In name (map u ["rb"; "rp"; "rt"; "rtc"]) ->
  safe_start p scripting quirks name encoded self_closing l = start_tag quirks name encoded self_closing l
  \/ (~ In name (allowed_tags p) /\ In name ActionModel.void_tags /\ safe_start p scripting quirks name encoded self_closing l = (fst (start_tag quirks name encoded self_closing l), [])).
Proof.
  intros D R O N. destruct (inv_facts l (reached_inv l R)) as (F1 & F2 & F3).
  assert (N' : in_strs name ruby_tags = false) by (destruct (in_strs name ruby_tags) eqn:E; [apply in_strs_In in E; contradiction|reflexivity]).
  pose proof (start_same p scripting quirks name encoded self_closing l D O N' F1 F2 F3) as E. cbv zeta in E. rewrite E.
  destruct (void_unknown p name && _) eqn:V; [right|left; reflexivity]. apply andb_true_iff in V as [V _]. unfold void_unknown in V. apply andb_true_iff in V as [V1 V2].
  split; [intros H; apply in_strs_In in H; rewrite H in V1; discriminate V1|]. split; [apply in_strs_In; exact V2|reflexivity].
Qed.
(* ... an allowed one always is *)
Theorem C76_allowed_start p scripting quirks name encoded self_closing l :
  p = default_policy \/ p = default_document_policy -> reached l -> ordinary name = true -> In name (allowed_tags p) ->
  safe_start p scripting quirks name encoded self_closing l = start_tag quirks name encoded self_closing l.
Proof.
  intros D R O A. destruct (C76_start_partial p scripting quirks name encoded self_closing l D R O) as [E|(E & _)]; [|exact E|contradiction].
  intros H. destruct D as [-> | ->]; vm_compute in H, A; repeat (destruct H as [H|H]; [subst name; repeat (destruct A as [A|A]; [discriminate A|]); exact A|]); exact H.
Qed.
(* Every end tag, whatever is open *)
Theorem C76_end p scripting name l : safe_end p scripting name l = end_tag name l.
Proof. apply end_same. Qed.

(* The default engine does not know that the tags of ruby annotations close a paragraph: <ruby><p>a<rt>b: the standard has b outside the paragraph, the engine inside. *)
Definition st (n : string) : event := Start (u n) false false.
Theorem C76_ruby_refuted : exists es p, p = default_policy /\ es = [st "ruby"; st "p"; st "rt"] /\ ok_event (st "ruby") body_open
  /\ existsb (named (u "p")) (fst (run (safe_start p true false) (safe_end p true) es body_open)) = true
  /\ existsb (named (u "p")) (fst (by_parser false es body_open)) = false
  /\ existsb (named (u "p")) (fst (by_standard es body_open)) = false.
Proof. do 2 eexists. split; [reflexivity|]. split; [reflexivity|]. split; [split; vm_compute; reflexivity|]. split; [vm_compute; reflexivity|]. split; vm_compute; reflexivity. Qed.

(* a history that meets the hypotheses: <div><p>a<hr>b<ul><li>c<area><p>d<li>e</ul><h1>f<h2>g</h3><section><button>h<p>i<button>j</section><br><img></br><x-el><p></x-el></p> *)
Definition et (n : string) : event := End (u n).
Definition history : list event := [st "div"; st "p"; st "hr"; st "ul"; st "li"; st "area"; st "p"; st "li"; et "ul"; st "h1"; st "h2"; et "h3"; st "section"; st "button"; st "p"; st "button"; et "section";
  st "br"; st "img"; et "br"; st "x-el"; st "p"; et "x-el"; et "p"].
Example C76_case : ok_events history body_open /\ Forall (fun e => match e with Start n _ _ => ~ In n (map u ["rb"; "rp"; "rt"; "rtc"]) | _ => True end) history
  /\ map en (fst (run (safe_start default_policy true false) (safe_end default_policy true) history body_open)) = map u ["x-el"; "div"; "body"; "html"]
  /\ List.length (snd (run (safe_start default_policy true false) (safe_end default_policy true) history body_open)) = 18 /\ List.length (snd (by_standard history body_open)) = 19.
Proof.
  split; [|split; [|split; [vm_compute; reflexivity|split; vm_compute; reflexivity]]].
  - unfold history. cbn [ok_events]. repeat match goal with |- _ /\ _ => split | |- True => exact I | |- ok_event _ _ => split; vm_compute; reflexivity end.
  - unfold history. repeat constructor; cbn; intros H; repeat (destruct H as [H|H]; [vm_compute in H; discriminate H|]); exact H.
Qed.
(* the short path is taken: a div in the body; and not: a div in a paragraph *)
Example C76_short : flag ActionModel.a_simple_start default_policy true (u "div") = true /\ p_count body_open = 0
  /\ safe_start default_policy true false (u "div") false false body_open = (El (u "div") Html false :: body_open, [(El (u "div") Html false, body_open)])
  /\ safe_start default_policy true false (u "div") false false (El (u "p") Html false :: body_open) = (El (u "div") Html false :: body_open, [(El (u "div") Html false, body_open)]).
Proof. repeat split; vm_compute; reflexivity. Qed.

Print Assumptions C76_history_partial.
Print Assumptions C76_start_partial.
Print Assumptions C76_allowed_start.
Print Assumptions C76_end.
Print Assumptions C76_ruby_refuted.
