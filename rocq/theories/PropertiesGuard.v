(* PROPERTY C65: in a parse with a built-in default policy, every element put into the tree is sanitized or recorded to be taken out *)
From Coq Require Import List Arith Bool String Lia.
From Verif Require Import Str.
From Verif Require Import FinishModel FinishSpec AaaModel ReconModel GuardModel GuardSpec GuardProofs GuardProofs2 GuardProofs3.
From Verif Require AttrModel PropertiesFinish.
Import ListNotations.
Open Scope string_scope. Open Scope list_scope. Open Scope nat_scope.

(* After any history of start tags, end tags, text and implied elements without the case tame excludes *)
Theorem C65_accounted_partial : forall allowed acts strict strip adjust context evs s s', plain_policy allowed acts -> fresh allowed acts s ->
  tame_run allowed acts strict strip adjust context evs s -> grun allowed acts strict strip adjust context evs s = Some s' -> accounted allowed acts s'.
Proof. intros allowed acts strict strip adjust context evs s s' P F T R. exact (proj1 (run_good allowed acts strict strip adjust context P evs s s' (fresh_good allowed acts s F) T R)). Qed.
Print Assumptions C65_accounted_partial.

(* ... so what the finishing passes (C60) leave in the tree are sanitized elements and nodes that are not elements of that parse at all (texts, comments, the document) *)
Theorem C65_finished_partial : forall allowed acts strict strip adjust context evs s s' h h' t t', plain_policy allowed acts -> fresh allowed acts s ->
  tame_run allowed acts strict strip adjust context evs s -> grun allowed acts strict strip adjust context evs s = Some s' ->
  forest h -> shows h t -> ~ In (root t) (unwraps s') -> finish (root t) None (drops s') (unwraps s') h = Some h' -> shows h' t' -> root t' = root t ->
  forall x, In x (ids t') -> x <> root t -> x < next (base s') -> sanitized allowed acts s' x.
Proof.
  intros allowed acts strict strip adjust context evs s s' h h' t t' P F T R Fo Sh Ro Fi Sh' Ro' x Hx Nx Lx.
  pose proof (C65_accounted_partial _ _ _ _ _ _ _ _ _ P F T R) as A.
  refine (PropertiesFinish.C60_harmless (fun x => x < next (base s') -> sanitized allowed acts s' x) _ _ h h' t t' Fo Sh Ro _ Fi Sh' Ro' x Hx Nx Lx).
  intros y _ _. destruct (le_lt_dec (next (base s')) y) as [H|H]; [left; lia|]. destruct (A y H) as [Q|Q]; [left; auto|right; exact Q].
Qed.
Print Assumptions C65_finished_partial.

(* The case excluded concerns only `a` start tags that meet foreign content on the stack of open elements: a document in which no element is ever foreign, for one *)
Theorem C65_no_foreign_partial : forall allowed acts strict strip adjust context evs s s', plain_policy allowed acts -> fresh allowed acts s ->
  (forall tpl recon compiled name src, In (GFormat tpl recon compiled name src) evs -> name <> u "a") ->
  grun allowed acts strict strip adjust context evs s = Some s' -> accounted allowed acts s'.
Proof.
  intros allowed acts strict strip adjust context evs s s' P F H R. apply (C65_accounted_partial allowed acts strict strip adjust context evs s s' P F); [|exact R]. clear R F. revert s. induction evs as [|e evs IH]; intros s; [exact I|].
  split; [|intros s1 _; apply IH; intros; eapply H; right; eassumption]. destruct e; try exact I. intros ->. exfalso. eapply H; [left; reflexivity|reflexivity].
Qed.
Print Assumptions C65_no_foreign_partial.
(* With no svg and no math start tag nothing escapes, whatever else is parsed *)
Theorem C65_html_partial : forall allowed acts strict strip adjust context evs s s', plain_policy allowed acts -> fresh allowed acts s -> (forall x, snd (tags (base s) x) = Html) ->
  (forall e, In e evs -> match e with GStart _ _ name _ _ | GImplied _ name => name <> u "svg" /\ name <> u "math" | _ => True end) ->
  grun allowed acts strict strip adjust context evs s = Some s' -> accounted allowed acts s' /\ forall x, snd (tags (base s') x) = Html.
Proof.
  intros allowed acts strict strip adjust context evs s s' P F Pl Hv R.
  destruct (GuardProofs3.run_plain allowed acts strict strip adjust context P evs s s') as [Gd Pl'].
  - exact (fresh_good allowed acts s F).
  - intros x. unfold foreign. now rewrite Pl.
  - apply Forall_forall. exact Hv.
  - exact R.
  - split; [exact (proj1 Gd)|]. intros x. specialize (Pl' x). unfold foreign in Pl'. destruct (snd (tags (base s') x)); congruence.
Qed.
Print Assumptions C65_html_partial.

(* A small policy: four tags, one attribute, https only *)
Definition p_allowed (n : str) : bool := in_strs n (map u ["#document"; "html"; "body"; "p"; "div"; "a"; "b"]).
Definition p_url (_ v : str) : option str := if starts (u "https:") v then Some v else None.
Definition p_acts (_ : str) : AttrModel.action := AttrModel.Action [u "href"] [] false p_url.
Definition p_start : gst := G (St [0; 1; 2] [] (fun x => (match x with 0 => u "#document" | 1 => u "html" | _ => u "body" end, Html)) 3 []) (fun _ => []) (fun _ => []) [] [].
Notation p_run := (grun p_allowed p_acts false (fun v => v) (fun _ a => a) None).
Example C65_example_policy : plain_policy p_allowed p_acts. Proof. intros name _. split; [reflexivity|intros k []]. Qed.
Example C65_example_fresh : fresh p_allowed p_acts p_start.
Proof. split; [reflexivity|]. intros x L. left. exists (fst (tags (base p_start) x)). destruct x as [|[|[|x]]]; [| | |cbn in L; lia]; repeat split; constructor. Qed.
Definition shown (s : gst) : list (nat * str * space * attrs) := map (fun x => (x, fst (tags (base s) x), snd (tags (base s) x), attr s x)) (seq 3 (next (base s) - 3)).

(* <p><x><a href=https://e><svg><g href=javascript:x></svg><a href=javascript:y onclick=z>t<div>u</a>: one clone, three recorded elements *)
Definition calm : list gevent :=
  [GStart false false (u "p") (u ">") 2; GFast (u "x") (u ">"); GFormat false true true (u "a") (u " href=https://e>"); GStart false true (u "svg") (u ">") 5; GStart false false (u "g") (u " href=javascript:x>") 6;
   GStack [0; 1; 2; 3; 4; 5]; GFormat false true true (u "a") (u " href=javascript:y onclick=z>"); GStart false true (u "div") (u ">") 8; GEnd (u "a")].
Example C65_example_run : exists s', p_run calm p_start = Some s' /\ unwraps s' = [4; 6; 7] /\ drops s' = [6]
  /\ shown s' = [(3, u "p", Html, []); (4, u "x", Html, []); (5, u "a", Html, [(u "href", u "https://e")]); (6, u "svg", Svg, []); (7, u "g", Svg, [(u "href", u "javascript:x")]);
                 (8, u "a", Html, []); (9, u "div", Html, []); (10, u "a", Html, [])].
Proof. destruct (p_run calm p_start) as [s'|] eqn:E; [|vm_compute in E; discriminate]. exists s'. split; [reflexivity|]. vm_compute in E. injection E as <-. vm_compute. repeat split; reflexivity. Qed.
Example C65_example_tame : tame_run p_allowed p_acts false (fun v => v) (fun _ a => a) None calm p_start.
Proof.
  unfold calm. repeat (split; [try exact I; intros _ [K|K]; try discriminate K; try (vm_compute in K; discriminate K)|intros ? K; vm_compute in K; injection K as <-]). exact I.
Qed.
(* <svg><desc><a href=javascript:x>: the case tame speaks of, met *)
Example C65_example_desc : let evs := [GStart false false (u "svg") (u ">") 2; GStart false false (u "desc") (u ">") 3; GFormat false true false (u "a") (u " href=javascript:x>")] in
  tame_run p_allowed p_acts false (fun v => v) (fun _ a => a) None evs p_start
  /\ option_map shown (p_run evs p_start) = Some [(3, u "svg", Svg, []); (4, u "desc", Svg, []); (5, u "a", Html, [])].
Proof.
  cbv zeta. split; [|vm_compute; reflexivity]. do 2 (split; [exact I|intros ? K; vm_compute in K; injection K as <-]). split; [|intros; exact I]. intros _ _ s1 K. vm_compute in K. injection K as <-. vm_compute. reflexivity.
Qed.

(* Finding: an `a` can escape.  <x><svg><desc><p><a></p></desc><desc><a href="javascript:alert(1)"><desc><div>click</a>
   The first `a` is in the list of formatting elements and no longer open, so the second desc start tag reopens it, as an svg element.  The next `a` is met while desc, an integration
   point, is current, and is read with all its attributes; closing the earlier `a` takes the desc off the stack, so the new element is an svg `a`, recorded to be unwrapped, with the
   attributes as written.  The list keeps them, and the end tag makes an HTML clone with them. *)
Definition attack : list gevent :=
  [GFast (u "x") (u ">"); GStart false true (u "svg") (u ">") 3; GStart false false (u "desc") (u ">") 4; GStart false false (u "p") (u ">") 5; GFormat false true true (u "a") (u ">");
   GStack [0; 1; 2; 3; 4; 5]; GStack [0; 1; 2; 3; 4]; GStart false true (u "desc") (u ">") 8; GFormat false true false (u "a") (u " href=""javascript:alert(1)"">");
   GStart false true (u "desc") (u ">") 10; GStart false false (u "div") (u ">") 11; GEnd (u "a")].

Theorem C65_link_refuted :
  ~ (forall allowed acts strict strip adjust context evs s s', plain_policy allowed acts -> fresh allowed acts s -> grun allowed acts strict strip adjust context evs s = Some s' -> accounted allowed acts s').
Proof.
  intros H. destruct (p_run attack p_start) as [s'|] eqn:E; [|vm_compute in E; discriminate]. pose proof (H _ _ _ _ _ _ _ _ _ C65_example_policy C65_example_fresh E) as A. vm_compute in E. injection E as <-.
  assert (L : 13 < 14) by lia. destruct (A 13 L) as [(n & _ & _ & Fo)|[D|U]].
  - inversion Fo as [|p l S1 _]; subst. destruct S1 as [_ (w & W)]. cbn [fst snd p_acts AttrModel.url] in W. unfold p_url in W. destruct (starts (u "https:") w) eqn:Ew; [|discriminate]. injection W as W. rewrite W in Ew. vm_compute in Ew. discriminate.
  - cbn in D. intuition discriminate.
  - cbn in U. intuition discriminate.
Qed.
Print Assumptions C65_link_refuted.
(* what there is at the end: element 13, an HTML `a` with the script, is neither in drops nor in unwraps, and nothing is dropped *)
Example C65_link_what_happens : exists s', p_run attack p_start = Some s' /\ tags (base s') 13 = (u "a", Html) /\ attr s' 13 = [(u "href", u "javascript:alert(1)")]
  /\ unwraps s' = [3; 4; 5; 8; 9; 10; 11] /\ drops s' = [].
Proof. destruct (p_run attack p_start) as [s'|] eqn:E; [|vm_compute in E; discriminate]. exists s'. split; [reflexivity|]. vm_compute in E. injection E as <-. vm_compute. repeat split; reflexivity. Qed.
