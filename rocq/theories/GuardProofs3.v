(* PROOFS for C65, part 3: histories without svg and math start tags *)
From Coq Require Import List Arith Bool String Lia.
From Verif Require Import Str StrFacts.
From Verif Require Import FinishModel AaaModel ReconModel GuardModel GuardSpec GuardProofs GuardProofs2.
From Verif Require AttrModel.
Import ListNotations.
Open Scope string_scope. Open Scope list_scope. Open Scope nat_scope.

Section plain.
Variable allowed : str -> bool.
Variable acts : str -> AttrModel.action.
Variable strict : bool.
Variable strip : str -> str.
Variable adjust : space -> attrs -> attrs.
Variable context : option nat.
Hypothesis Pol : plain_policy allowed acts.
Definition plain (s : gst) : Prop := forall x, foreign (tags (base s) x) = false.

Lemma make_plain : forall name a push un dr s, plain s -> plain (make name Html a push un dr s).
Proof. intros name a push un dr s H x. cbn [make base tags]. unfold upd. destruct (x =? next (base s)); [reflexivity|apply H]. Qed.
Lemma insert_plain : forall tpl name a self parent s, plain s -> by_name name = Html -> plain (insert_sanitized allowed acts strip adjust context tpl name a self parent s).
Proof. intros tpl name a self parent s H B. unfold insert_sanitized, namespace_for. rewrite (H (cur s)), B. now apply make_plain. Qed.
Lemma advance_plain : forall tpl k idx s s', good allowed acts s -> plain s -> advance allowed acts strip adjust context tpl k idx s = Some s' -> plain s'.
Proof.
  intros tpl. induction k as [|k IH]; intros idx s s' Gd Pl H; cbn [advance] in H; destruct (nth_error (active (base s)) idx) as [[e|]|] eqn:E; try discriminate; try (injection H as <-; exact Pl).
  destruct (negb (e_live e)); [now apply IH in H|].
  assert (Ok : entry_ok allowed acts s (e_name e) (e_token e)) by (apply (proj2 Gd); now apply nth_error_In in E).
  pose proof (insert_plain tpl (e_name e) (kept s (e_token e)) false (cur s) s Pl (proj1 (formatting_html _ (proj1 Ok)))) as P1.
  destruct (insert_good allowed acts strip adjust context tpl (e_name e) (kept s (e_token e)) false (cur s) s Gd) as (G1 & N1 & A1 & K1).
  set (s1 := insert_sanitized _ _ _ _ _ _ _ _ _ _ _) in *. clearbody s1. apply IH in H; [exact H| |exact P1].
  apply good_active; [exact G1|]. intros f I. apply in_put in I as [I|I]; [|now apply (proj2 G1)]. injection I as ->. cbn [e_name e_token]. destruct Ok as (Q1 & Q2 & Q3). split; [exact Q1|]. split; [lia|]. now rewrite K1.
Qed.
Lemma reconstruct_plain : forall tpl s s', good allowed acts s -> plain s -> reconstruct allowed acts strip adjust context tpl s = Some s' -> plain s'.
Proof.
  intros tpl s s' Gd Pl H. unfold reconstruct in H. destruct (last_index _ _) as [i|]; [|injection H as <-; exact Pl]. destruct (nth_error (active (base s)) i) as [[e|]|]; try (injection H as <-; exact Pl).
  exact (advance_plain _ _ _ _ _ Gd Pl H).
Qed.
Lemma adopt_plain : forall subject s s', plain s -> adopt allowed subject s = Some s' -> plain s'.
Proof.
  intros subject s s' Pl H. unfold adopt in H. destruct (adoption_agency _ _ _ _) as [b|] eqn:E; [|discriminate]. injection H as <-.
  apply (adoption_ext (fun _ _ => True)) in E as [[N T R (o & Eo & New1 & New2)] _]; [|intros e _; exact I]. cbn [next tags ops] in *. intros x.
  rewrite (proj1 (absorb_spec allowed strip (ops b) (set_base b s))). cbn [set_base base]. destruct (Nat.lt_ge_cases x (next (base s))) as [L|L]; [rewrite T by exact L; apply Pl|].
  destruct (Nat.lt_ge_cases x (next b)) as [L2|L2]; [|rewrite R by exact L2; apply Pl]. destruct (New1 x (conj L L2)) as (n & t & I). apply New2 in I as (_ & _ & ->). reflexivity.
Qed.
Lemma make_room_plain : forall name s s', plain s -> make_room allowed name s = Some s' -> plain s'.
Proof.
  intros name s s' Pl H. assert (K : forall s1, option_map (fun s => remove_open name (remove_active name s)) (adopt allowed name s) = Some s1 -> plain s1).
  { intros s1 E. destruct (adopt allowed name s) as [s2|] eqn:Ea; [|discriminate]. injection E as <-. apply adopt_plain in Ea; [|exact Pl].
    assert (P3 : plain (remove_active name s2)) by (unfold remove_active; destruct (find_name _ _ _); exact Ea). unfold remove_open. destruct (open_index _ _ _); exact P3. }
  unfold make_room in H. destruct (str_eqb name (u "a") && _); [now apply K|]. destruct (str_eqb name (u "nobr") && _); [now apply K|]. injection H as <-. exact Pl.
Qed.
Definition html_event (ev : gevent) : Prop := match ev with GStart _ _ name _ _ | GImplied _ name => name <> u "svg" /\ name <> u "math" | _ => True end.
Lemma by_html : forall name, name <> u "svg" /\ name <> u "math" -> by_name name = Html.
Proof.
  intros name [A B]. unfold by_name. destruct (str_eqb name (u "svg")) eqn:E; [apply str_eqb_eq in E; contradiction|]. destruct (str_eqb name (u "math")) eqn:E2; [apply str_eqb_eq in E2; contradiction|reflexivity].
Qed.
Lemma plain_tame : forall ev s, plain s -> tame allowed ev s.
Proof. intros ev s Pl. destruct ev; try exact I. intros _ _ s1 E. apply make_room_plain in E; [|exact Pl]. unfold html_text. now rewrite (E (cur s1)). Qed.
Lemma step_plain : forall ev s s', good allowed acts s -> plain s -> html_event ev -> gstep allowed acts strict strip adjust context ev s = Some s' -> plain s'.
Proof.
  intros ev s s' Gd Pl Hv H. destruct ev as [tpl recon name src parent|name src|tpl recon compiled name src|tpl name|subject|tpl|l| | |x|x src]; cbn [gstep] in H.
  - destruct (read_attrs _ _ _ _ _ _) as [[[a self] []]|]; [|injection H as <-; exact Pl|discriminate]. destruct (if recon then _ else _) as [s1|] eqn:Er; [|discriminate]. injection H as <-.
    apply insert_plain; [|now apply by_html]. destruct recon; [|injection Er as <-; exact Pl]. now apply reconstruct_plain in Er.
  - destruct (foreign _); [injection H as <-; exact Pl|]. destruct (AttrModel.parse_attrs_for_action _ _ _ _) as [[[[a self] rest] []]|]; [|injection H as <-; exact Pl|discriminate]. injection H as <-. now apply make_plain.
  - destruct (read_attrs _ _ _ _ _ _) as [[[a self] []]|]; [|injection H as <-; exact Pl|discriminate]. destruct (in_strs name formatting_names && _) eqn:C; [|injection H as <-; exact Pl]. apply andb_prop in C as [F _].
    unfold formatting_start in H. destruct (make_room allowed name s) as [s1|] eqn:Em; [|discriminate]. pose proof (make_room_plain _ _ _ Pl Em) as P1. pose proof (make_room_good allowed acts strip _ _ _ Gd Em) as G1. clear Em.
    destruct (if recon then _ else _) as [s2|] eqn:Er; [|discriminate]. injection H as <-. assert (P2 : plain s2) by (destruct recon; [now apply reconstruct_plain in Er|injection Er as <-; exact P1]).
    assert (P3 : plain (if compiled && negb (foreign (tags (base s) (cur s))) then insert_compiled allowed name a s2 else insert_sanitized allowed acts strip adjust context tpl name a false (cur s2) s2)).
    { destruct (compiled && _); [now apply make_plain|]. apply insert_plain; [exact P2|]. now apply formatting_html. }
    exact P3.
  - injection H as <-. apply insert_plain; [exact Pl|now apply by_html].
  - now apply adopt_plain in H.
  - now apply reconstruct_plain in H.
  - injection H as <-. exact Pl.
  - injection H as <-. exact Pl.
  - injection H as <-. exact Pl.
  - destruct (find_node _ _ _); injection H as <-; exact Pl.
  - destruct (AttrModel.parse_attrs_for_action _ _ _ _) as [[[[a self] rest] []]|]; [|injection H as <-; exact Pl|discriminate]. injection H as <-. exact Pl.
Qed.
Lemma run_plain : forall evs s s', good allowed acts s -> plain s -> Forall html_event evs -> grun allowed acts strict strip adjust context evs s = Some s' -> good allowed acts s' /\ plain s'.
Proof.
  induction evs as [|ev evs IH]; intros s s' Gd Pl Hv H; [injection H as <-; auto|]. inversion Hv; subst. cbn [grun] in H. destruct (gstep _ _ _ _ _ _ ev s) as [s1|] eqn:E; [|discriminate].
  apply (IH s1); try assumption; [|now apply step_plain in E]. apply (step_good _ _ _ _ _ _ Pol _ _ _ Gd (plain_tame _ _ Pl) E).
Qed.
End plain.
