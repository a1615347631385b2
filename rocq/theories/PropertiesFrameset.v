(* PROPERTIES of FramesetModel.v *)
From Coq Require Import List Arith NArith Bool String.
From Verif Require Import Str StrFacts FramesetModel FramesetSpec FramesetProofs SanTreeProofs SanFacts.
Import ListNotations.
Open Scope string_scope. Open Scope list_scope.

(* C77: the body may be replaced just when every node that is reached through harmless elements may be: in whatever order the engine looks at them *)
Theorem C77_body n : body_allows n = true <-> (forall m, below plain n m -> replaceable m).
Proof. exact (body_spec n). Qed.
Definition html_elt (s : string) (c : list node) : node := Elt (u s) (Some (u "html")) [] c.
Example C77_body_instance :
  body_allows (html_elt "body" [Text (Some (u " ")); html_elt "div" [Elt (u "input") None [(u "type", Some (u "HiDDen"))] []; html_elt "b" []]; Elt (u "svg") (Some (u "svg")) [] [Text None]]) = true
  /\ body_allows (html_elt "body" [html_elt "p" [html_elt "b" [Text (Some (u "x"))]]]) = false.
Proof. split; vm_compute; reflexivity. Qed.

(* no content the standard keeps is lost, where foreign content holds no HTML elements and no U+FFFD, and inputs are empty *)
Theorem C77_standard_partial n : body_allows n = true ->
  (forall f m, below anything n f -> foreign f -> below anything f m -> match m with Text d => only [32; 9; 10; 12; 13]%N d | Elt _ ns _ _ => ~ in_html ns end) ->
  (forall i m, below anything n i -> hidden_input i -> ~ below anything i m) ->
  flag_ok n.
Proof.
  intros B F E m W. pose proof (proj1 (C77_body n) B) as R. clear B. destruct (below_split _ _ W) as [P|(f & P & N & K)].
  - specialize (R m P). destruct R as [(d & -> & O)|[(nm & ns & a & c & -> & H & I)|[Hi|[(nm & s & a & c & -> & N1 & N2) _]]]].
    + exact O.
    + intros _. destruct (harmless_ok _ I) as [A D]. split; [exact A|]. intros ->. now destruct D.
    + destruct Hi as (ns & a & c & v & -> & H & G & L). intros _. split; [|intros _; exists ns, a, c, v; auto].
      intros I. apply in_strs_In in I. vm_compute in I. discriminate I.
    + intros [D|[= D]]; congruence.
  - assert (Wf : below anything n f) by (revert P; apply below_mono; intros; exact I).
    destruct (R f P) as [(d & -> & O)|[Pl|[Hi|[Fo _]]]].
    + exfalso. clear -K. revert K. generalize (eq_refl (Text d)). generalize (Text d) at 1 3. intros x E K. induction K as [c I|y c K IH _ I]; [subst x; destruct I|now apply IH].
    + contradiction.
    + destruct (E f m Wf Hi K).
    + specialize (F f m Wf Fo K). destruct m as [d|nm ns a c]; [exact F|]. intros H. contradiction.
Qed.
Example C77_standard_instance : exists n, body_allows n = true /\ kids n <> [] /\ flag_ok n.
Proof.
  exists (html_elt "body" [html_elt "p" []; Text (Some (u " "))]). split; [reflexivity|]. split; [discriminate|]. apply C77_standard_partial; [reflexivity| |].
  - intros f m W (nm & s & a & c & -> & N1 & _) _. exfalso. apply below_split in W as [W|(g & P & N & K)].
    + pose proof (proj1 (C77_body (html_elt "body" [html_elt "p" []; Text (Some (u " "))])) eq_refl _ W) as R.
      inversion W as [c' I|x c' W' Px I]; subst; [destruct I as [I|[I|[]]]; inversion I; subst; now destruct N1|].
      inversion W' as [c'' I'|x' c'' W'' Px' I']; subst; [destruct I' as [I'|[I'|[]]]; subst; destruct I|].
      clear R W Px I. revert x' Px' I' W''. assert (A : forall y, below plain (html_elt "body" [html_elt "p" []; Text (Some (u " "))]) y -> y = html_elt "p" [] \/ y = Text (Some (u " "))).
      { intros y Wy. induction Wy as [z J|z w Wy IH Pz J]; [destruct J as [<-|[<-|[]]]; auto|destruct IH as [->| ->]; destruct J]. }
      intros x' _ I' W''. destruct (A _ W'') as [->| ->]; destruct I'.
    + assert (A : forall y, below plain (html_elt "body" [html_elt "p" []; Text (Some (u " "))]) y -> y = html_elt "p" [] \/ y = Text (Some (u " "))).
      { intros y Wy. induction Wy as [z J|z w Wy IH Pz J]; [destruct J as [<-|[<-|[]]]; auto|destruct IH as [->| ->]; destruct J]. }
      assert (Z : forall z y, kids z = [] -> ~ below anything z y).
      { intros z y Kz B. induction B as [w J|w y B IH _ J]; [rewrite Kz in J; destruct J|exact IH]. }
      destruct (A _ P) as [->| ->]; (eapply Z; [|exact K]; reflexivity).
  - intros i m W (ns & a & c & v & -> & _ & _ & _) _. 
    assert (A : forall y, below anything (html_elt "body" [html_elt "p" []; Text (Some (u " "))]) y -> y = html_elt "p" [] \/ y = Text (Some (u " "))).
    { intros y Wy. induction Wy as [z J|z w Wy IH Pz J]; [destruct J as [<-|[<-|[]]]; auto|destruct IH as [->| ->]; destruct J]. }
    destruct (A _ W) as [D|D]; discriminate D.
Qed.

(* the standard replaces these bodies, the engine keeps them and drops the frameset: <span></span>, and a comment *)
Theorem C77_kept_refuted : exists n, (exists c, n = html_elt "body" [c] /\ kids c = []) /\ flag_ok n /\ body_allows n = false.
Proof.
  exists (html_elt "body" [html_elt "span" []]). split; [eexists; split; reflexivity|]. split; [|reflexivity].
  intros m W. assert (A : m = html_elt "span" []).
  { induction W as [z J|z w Wy IH Pz J]; [destruct J as [<-|[]]; reflexivity|subst z; destruct J]. }
  subst m. intros _. split; [|discriminate]. intros I. apply in_strs_In in I. vm_compute in I. discriminate I.
Qed.
Theorem C77_comment_refuted : body_allows (html_elt "body" [html_elt "#comment" []]) = false /\ body_allows (html_elt "body" []) = true.
Proof. split; reflexivity. Qed.
(* the standard keeps this body, the engine replaces it: <svg><foreignObject><br> *)
Theorem C77_lost_refuted : exists n, body_allows n = true /\ ~ flag_ok n.
Proof.
  exists (html_elt "body" [Elt (u "svg") (Some (u "svg")) [] [Elt (u "foreignObject") (Some (u "svg")) [] [html_elt "br" []]]]). split; [vm_compute; reflexivity|].
  intros F. assert (W : below anything (html_elt "body" [Elt (u "svg") (Some (u "svg")) [] [Elt (u "foreignObject") (Some (u "svg")) [] [html_elt "br" []]]]) (html_elt "br" [])).
  { eapply deeper; [eapply deeper; [apply child; now left|exact I|now left]|exact I|now left]. }
  specialize (F _ W (or_intror eq_refl)) as [N _]. apply N. apply in_strs_In. vm_compute. reflexivity.
Qed.

(* over any history of start tags and changes of the body: when a frameset is accepted, the input is no fragment, no body tag and none of the tags that block
   it came before outside a template, the body may be replaced, and is then empty *)
Definition blocks (name : str) (attrs : list (str * option str)) : Prop :=
  In name (map u ["applet"; "area"; "button"; "dd"; "dt"; "embed"; "iframe"; "keygen"; "listing"; "marquee"; "object"; "select"; "textarea"; "wbr"; "xmp"])
  \/ (name = u "input" /\ ~ exists v, get (u "type") attrs = Some (Some v) /\ lower v = u "hidden").
Lemma blocks_spec name attrs : in_strs name blocking_tags && negb (str_eqb name (u "input") && hidden attrs) = true <-> blocks name attrs.
Proof.
  rewrite andb_true_iff, negb_true_iff. unfold blocks. split.
  - intros [I H]. destruct (str_eqb_spec name (u "input")) as [->|N].
    + right. split; [reflexivity|]. intros K. apply hidden_spec in K. rewrite K in H. discriminate H.
    + left. apply in_strs_In in I. assert (N' : u "input" <> name) by congruence. unfold blocking_tags in I. cbn [map In] in I |- *. tauto.
  - intros [I|[-> N]].
    + split; [apply in_strs_In; unfold blocking_tags; cbn [map In] in I |- *; tauto|]. destruct (str_eqb_spec name (u "input")) as [->|N]; [|reflexivity].
      apply in_strs_In in I. vm_compute in I. discriminate I.
    + split; [reflexivity|]. destruct (hidden attrs) eqn:H; [|reflexivity]. destruct N. now apply hidden_spec.
Qed.
Definition run (fragment : bool) (l : list event) : state := fold_left step l (start fragment).
Lemma run_snoc f l e : run f (l ++ [e]) = step (run f l) e.
Proof. unfold run. now rewrite fold_left_app. Qed.
Lemma block_same i n a s : seen (block i n a s) = seen s /\ explicit (block i n a s) = explicit s /\ fragment (block i n a s) = fragment s /\ body (block i n a s) = body s /\ (blocked s = true -> blocked (block i n a s) = true).
Proof. unfold block. destruct (_ && _); cbn; auto. Qed.
Lemma accept_same s s' : accept s = Some s' -> seen s' = true /\ seen s = false /\ blocked s = false /\ explicit s = false /\ fragment s = false /\ body_allows (body s) = true /\ kids (body s') = [] /\ fragment s' = fragment s.
Proof.
  unfold accept. destruct (fragment s) eqn:F, (seen s) eqn:S, (blocked s) eqn:B, (explicit s) eqn:E; cbn; try discriminate.
  destruct (body_allows (body s)) eqn:A; cbn; [|discriminate]. intros [= <-]. cbn. repeat split; auto. destruct (body s); reflexivity.
Qed.
Lemma run_fragment f l : fragment (run f l) = f.
Proof.
  induction l as [|e l IH] using rev_ind; [reflexivity|]. rewrite run_snoc. rewrite <- IH at 2. generalize (run f l). intros s. destruct e as [i n a|n]; [|reflexivity].
  cbn [step]. destruct (_ && _ && _); [destruct (seen s); reflexivity|]. destruct (block_same i n a s) as (_ & _ & F & _). rewrite <- F. destruct (_ && _); [|reflexivity].
  destruct (accept (block i n a s)) as [s'|] eqn:A; [|reflexivity]. apply accept_same in A. apply A.
Qed.
(* seen changes by a frameset tag outside templates only, and never back *)
Theorem C77_changes s e : seen (step s e) = seen s \/ (seen s = false /\ exists attrs, e = Tag false (u "frameset") attrs).
Proof.
  destruct e as [i n a|n]; [|left; reflexivity]. cbn [step]. destruct (_ && _ && _); [destruct (seen s) eqn:S; left; cbn; auto|].
  destruct (block_same i n a s) as (S & _). destruct (str_eqb_spec n (u "frameset")) as [->|N]; cbn [andb]; [|now left].
  destruct i; cbn [negb andb]; [now left|]. destruct (accept _) as [s'|] eqn:A; [|now left]. right. apply accept_same in A. destruct A as (_ & A & _). split; [congruence|eauto].
Qed.
Lemma run_inv l : let s := run false l in seen s = false ->
  forall name attrs, In (Tag false name attrs) l -> (name = u "body" -> explicit s = true) /\ (blocks name attrs -> blocked s = true).
Proof.
  induction l as [|e l IH] using rev_ind; cbn zeta; [intros _ name attrs []|]. rewrite run_snoc. intros S name attrs I.
  assert (S0 : seen (run false l) = false) by (destruct (C77_changes (run false l) e) as [E|[E _]]; congruence).
  assert (F : fragment (run false l) = false) by apply run_fragment.
  specialize (IH S0 name attrs). set (s := run false l) in *. clearbody s.
  apply in_app_or in I as [I|[->|[]]].
  - specialize (IH I) as [IH1 IH2]. destruct e as [i n a|n]; [|cbn; auto]. cbn [step] in *. rewrite F, S0 in *. cbn [negb andb] in *. 
    destruct (block_same i n a s) as (Sb & Eb & _ & _ & Bb).
    destruct (str_eqb n (u "body") && true && negb i); [cbn; auto|].
    destruct (str_eqb n (u "frameset") && negb i).
    + destruct (accept (block i n a s)) as [s'|] eqn:A; [apply accept_same in A as (A & _); congruence|]. rewrite Eb. auto.
    + rewrite Eb. auto.
  - clear IH. cbn [step] in *. rewrite F, S0 in *. cbn [negb] in *. rewrite !andb_true_r in *. destruct (str_eqb_spec name (u "body")) as [->|N].
    + cbn. split; [reflexivity|]. intros [I|[D _]]; [|discriminate D]. apply in_strs_In in I. vm_compute in I. discriminate I.
    + split; [intros D; contradiction|]. intros B.
      assert (K : blocked (block false name attrs s) = true).
      { unfold block. rewrite F, S0. cbn [negb andb]. apply blocks_spec in B. rewrite B. reflexivity. }
      destruct (str_eqb name (u "frameset")); [|exact K].
      destruct (accept (block false name attrs s)) as [s'|] eqn:A; [apply accept_same in A as (_ & _ & A & _); congruence|exact K].
Qed.
Theorem C77_accepted fragment l attrs :
  let s := run fragment l in let s' := run fragment (l ++ [Tag false (u "frameset") attrs]) in
  seen s = false -> seen s' = true ->
  fragment = false
  /\ (forall name attrs, In (Tag false name attrs) l -> name <> u "body" /\ ~ blocks name attrs)
  /\ (forall m, below plain (body s) m -> replaceable m)
  /\ kids (body s') = [].
Proof.
  cbn zeta. rewrite run_snoc. intros S S'. cbn [step] in *. change (str_eqb (u "frameset") (u "body")) with false in *. change (str_eqb (u "frameset") (u "frameset")) with true in *. cbn [negb andb] in *.
  destruct (block_same false (u "frameset") attrs (run fragment l)) as (Sb & Eb & Fb & Bb & Kb).
  destruct (accept (block false (u "frameset") attrs (run fragment l))) as [s'|] eqn:A; [|congruence].
  apply accept_same in A as (_ & _ & B & E & F & W & K & _). rewrite Fb in F. rewrite Eb in E. rewrite Bb in W. pose proof (run_fragment fragment l) as Hf. rewrite F in Hf. subst fragment.
  split; [reflexivity|]. split; [|split; [now apply C77_body|exact K]]. intros name at_ I. destruct (run_inv l S name at_ I) as [H1 H2]. split.
  - intros ->. rewrite H1 in E; [discriminate|reflexivity].
  - intros H. specialize (H2 H). rewrite (Kb H2) in B. discriminate.
Qed.
(* and it is accepted where all that holds *)
Theorem C77_accepts s attrs : fragment s = false -> seen s = false -> blocked s = false -> explicit s = false -> (forall m, below plain (body s) m -> replaceable m) ->
  let s' := step s (Tag false (u "frameset") attrs) in seen s' = true /\ kids (body s') = [].
Proof.
  intros F S B E R. cbn [step]. change (str_eqb (u "frameset") (u "body")) with false. change (str_eqb (u "frameset") (u "frameset")) with true. cbn [negb andb].
  apply C77_body in R. unfold block. change (in_strs (u "frameset") blocking_tags) with false. rewrite andb_false_r. cbn [andb]. unfold accept. rewrite F, S, B, E, R. cbn. split; [reflexivity|]. destruct (body s); reflexivity.
Qed.
(* tags inside a template change nothing of this *)
Theorem C77_template s name attrs : step s (Tag true name attrs) = s.
Proof. cbn [step]. rewrite !andb_false_r. reflexivity. Qed.
Example C77_accepted_instance :
  seen (run false [Tag false (u "p") []; Body (html_elt "body" [html_elt "p" []]); Tag false (u "frameset") []]) = true
  /\ seen (run false [Tag false (u "wbr") []; Body (html_elt "body" []); Tag false (u "frameset") []]) = false
  /\ seen (run false [Tag true (u "wbr") []; Tag false (u "frameset") []]) = true.
Proof. repeat split; vm_compute; reflexivity. Qed.

Print Assumptions C77_body.
Print Assumptions C77_standard_partial.
Print Assumptions C77_kept_refuted.
Print Assumptions C77_comment_refuted.
Print Assumptions C77_lost_refuted.
Print Assumptions C77_changes.
Print Assumptions C77_accepted.
Print Assumptions C77_accepts.
Print Assumptions C77_template.
