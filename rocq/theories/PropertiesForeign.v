(* C73: names of elements and attributes in SVG and MathML. *)
From Coq Require Import NArith List Bool Lia String.
From Verif Require Import Str StrFacts AttrModel ForeignModel ForeignSpec ForeignProofs.
Import ListNotations.
Open Scope list_scope.
Open Scope N_scope.

(* What the attribute scanner gives (C40) has no capitals and no U+212A, unless U+212A stands in the source. *)
Lemma alow_c_upper c : is_upper_ascii (alow_c c) = false.
Proof. unfold alow_c. destruct (is_upper_ascii c) eqn:E; [|exact E]. unfold is_upper_ascii in *. apply andb_true_iff in E. destruct E as [E1 E2]. apply N.leb_le in E1, E2. apply andb_false_iff. right. apply N.leb_gt. lia. Qed.
Lemma alow_c_kelvin c : alow_c c = 8490 -> c = 8490.
Proof. unfold alow_c. destruct (is_upper_ascii c) eqn:E; [|auto]. unfold is_upper_ascii in E. apply andb_true_iff in E. destruct E as [_ E]. apply N.leb_le in E. lia. Qed.
Lemma lookup_not_kelvin : forallb (fun e => let '(lo, hi, step, img) := e in (8490 <? img) || (img + (hi - lo) <? 8490)) lower_entries = true.
Proof. vm_compute. reflexivity. Qed.
Lemma lower_lookup_kelvin l c d : forallb (fun e => let '(lo, hi, step, img) := e in (8490 <? img) || (img + (hi - lo) <? 8490)) l = true -> lower_lookup l c = Some d -> d <> 8490.
Proof.
  induction l as [|[[[lo hi] step] img] l IH]; cbn [forallb lower_lookup]; [discriminate|]. intros H. apply andb_true_iff in H. destruct H as [H1 H2].
  destruct ((lo <=? c) && (c <=? hi) && ((c - lo) mod step =? 0)) eqn:E; [|now apply IH]. intro X. injection X as <-.
  apply andb_true_iff in E. destruct E as [E _]. apply andb_true_iff in E. destruct E as [E1 E2]. apply N.leb_le in E1, E2.
  apply orb_true_iff in H1. rewrite !N.ltb_lt in H1. lia.
Qed.
Lemma folded_lower_c c d : c <> 8490 -> In d (lower_c c) -> is_upper_ascii d = false /\ d <> 8490.
Proof.
  intros K H. destruct (N.lt_ge_cases c 128) as [X|X].
  - rewrite lower_c_ascii in H by assumption. destruct H as [<-|[]]. split; [apply alow_c_upper|]. intro E. apply alow_c_kelvin in E. lia.
  - destruct (N.eq_dec c 304) as [->|E3].
    + rewrite lower_c_dotted_I in H. destruct H as [<-|[<-|[]]]; split; try reflexivity; discriminate.
    + unfold lower_c in H. assert (L1 : c <? 128 = false) by (apply N.ltb_ge; lia). assert (L2 : c =? 304 = false) by now apply N.eqb_neq. rewrite L1, L2 in H.
      destruct (lower_lookup lower_entries c) as [e|] eqn:E.
      * destruct H as [<-|[]]. split; [|apply (lower_lookup_kelvin _ _ _ lookup_not_kelvin E)]. apply lower_lookup_ok in E; [|exact lower_entries_ok].
        unfold is_upper_ascii. apply andb_false_iff. right. apply N.leb_gt. lia.
      * destruct H as [<-|[]]. split; [|assumption]. unfold is_upper_ascii. apply andb_false_iff. right. apply N.leb_gt. lia.
Qed.
Theorem C73_source_names strict raw : ~ In 8490 raw -> folded (fold_key strict raw).
Proof.
  intros K c Hc. unfold fold_key, replace_char in Hc.
  assert (G : forall x, In x (if strict then alow raw else lower raw) -> is_upper_ascii x = false /\ x <> 8490).
  { intros x Hx. destruct strict.
    - apply in_map_iff in Hx. destruct Hx as (y & <- & Hy). split; [apply alow_c_upper|]. intro E. apply alow_c_kelvin in E. congruence.
    - apply in_flat_map in Hx. destruct Hx as (y & Hy & Hx). apply (folded_lower_c y x); [congruence|assumption]. }
  apply in_flat_map in Hc. destruct Hc as (y & Hy & Hc). destruct (y =? 0); [destruct Hc as [<-|[]]; split; [reflexivity|discriminate]|].
  destruct Hc as [<-|[]]. now apply G.
Qed.

(* Every attribute keeps its value and its place; its name is the one the standard gives it. *)
Definition standard_name (namespace k : str) : str :=
  if str_eqb namespace (u "svg") then svg_attribute k else if str_eqb namespace (u "math") then mathml_attribute k else k.
Theorem C73_attributes_partial namespace name l : (forall k, In k (map fst l) -> folded k) -> NoDup (map fst l) ->
  snd (prepare namespace name l) = map (fun a => (standard_name namespace (fst a), snd a)) l.
Proof.
  intros Hf Hn. unfold prepare. cbn [snd]. destruct (str_eqb namespace svg || str_eqb namespace math) eqn:E; [now apply prepare_attrs_spec|].
  apply orb_false_iff in E. destruct E as [E1 E2]. rewrite <- (map_id l) at 1. apply map_ext. intros [k v]. unfold standard_name. cbn [fst snd].
  change (u "svg") with svg. change (u "math") with math. now rewrite E1, E2.
Qed.
(* No two names become one. *)
Theorem C73_names_distinct namespace name l : (forall k, In k (map fst l) -> folded k) -> NoDup (map fst l) -> NoDup (map fst (snd (prepare namespace name l))).
Proof.
  intros Hf Hn. rewrite C73_attributes_partial by assumption. rewrite map_map. cbn [fst]. rewrite <- map_map.
  assert (E : map alow (map (standard_name namespace) (map fst l)) = map fst l).
  { rewrite map_map. rewrite <- (map_id (map fst l)) at 2. apply map_ext_in. intros k Hk. apply (adjusted_fold namespace k). now apply Hf. }
  apply (NoDup_map_inv alow). now rewrite E.
Qed.
(* U+212A in a source that spells "xlink" with it is taken for a k: the standard folds ASCII letters only. *)
Theorem C73_attributes_refuted : let raw := u "xlin" ++ [8490] ++ u ":href" in
  fold_key true raw = raw /\ prepare (u "svg") (u "a") [(raw, Some (u "x"))] = (u "a", [(u "xlink:href", Some (u "x"))])
  /\ standard_name (u "svg") raw = raw
  /\ prepare (u "svg") (u "a") [(u "xlink:href", Some (u "x")); (raw, Some (u "y"))] = (u "a", [(u "xlink:href", Some (u "x"))]).
Proof. cbv zeta. repeat split; vm_compute; reflexivity. Qed.

(* Elements: all names of the standard but one. *)
Theorem C73_elements_partial namespace name l : folded name -> name <> u "fedropshadow" ->
  fst (prepare namespace name l) = if str_eqb namespace (u "svg") then svg_element name else name.
Proof.
  intros Hf Hn. unfold prepare. cbn [fst]. unfold element_name. change (u "svg") with svg. destruct (str_eqb namespace svg); [|reflexivity].
  rewrite element_table. rewrite assoc_mixed. unfold svg_element. induction svg_element_names as [|m r IH]; [reflexivity|].
  cbn [List.filter]. destruct (str_eqb m (u "feDropShadow")) eqn:E; cbn [negb].
  - rewrite IH. cbn [mixed_case]. apply str_eqb_eq in E. subst m. destruct (str_eqb (alow (u "feDropShadow")) name) eqn:F; [|reflexivity].
    apply str_eqb_eq in F. exfalso. apply Hn. rewrite <- F. reflexivity.
  - cbn [mixed_case]. now rewrite IH.
Qed.
Theorem C73_elements_refuted : fst (prepare (u "svg") (u "fedropshadow") []) = u "fedropshadow" /\ svg_element (u "fedropshadow") = u "feDropShadow".
Proof. split; vm_compute; reflexivity. Qed.

(* Written out and read again, names come back: read, they are folded, and adjusted again they are the same. *)
Theorem C73_round_trip strict namespace name k : folded k -> is_ascii k = true -> ~ In 0 k -> folded name ->
  fold_key strict (standard_name namespace k) = k /\ alow (fst (prepare namespace name [])) = name.
Proof.
  intros Hf Ha Hz Hn. split.
  - assert (A : alow (standard_name namespace k) = k) by now apply (adjusted_fold namespace k).
    assert (B : lower (standard_name namespace k) = k).
    { rewrite lower_ascii; [assumption|]. unfold is_ascii in *. rewrite <- A in Ha at 1. apply forallb_forall. intros c Hc. rewrite forallb_forall in Ha.
      assert (I : In (alow_c c) (alow (standard_name namespace k))) by now apply in_map. apply Ha in I. unfold is_ascii_char, alow_c in *. destruct (is_upper_ascii c); [|assumption].
      apply N.ltb_lt in I. apply N.ltb_lt. lia. }
    unfold fold_key. assert (R : replace_char 0 [65533] k = k).
    { unfold replace_char. clear - Hz. induction k as [|c r IH]; [reflexivity|]. cbn [flat_map]. assert (c =? 0 = false) as -> by (apply N.eqb_neq; intro E; apply Hz; left; exact E).
      cbn [app]. f_equal. apply IH. intro X. apply Hz. now right. }
    destruct strict; [rewrite A|rewrite B]; exact R.
  - unfold prepare. cbn [fst]. unfold element_name. destruct (str_eqb namespace svg); [|now apply alow_folded]. rewrite element_table, assoc_mixed. now apply mixed_case_fold.
Qed.

(* Examples. *)
Example c73_svg : prepare (u "svg") (u "lineargradient") [(u "gradientunits", Some (u "userSpaceOnUse")); (u "xlink:href", Some (u "#a")); (u "class", None)]
  = (u "linearGradient", [(u "gradientUnits", Some (u "userSpaceOnUse")); (u "xlink:href", Some (u "#a")); (u "class", None)]).
Proof. vm_compute. reflexivity. Qed.
Example c73_math : prepare (u "math") (u "semantics") [(u "definitionurl", Some (u "x")); (u "viewbox", None)] = (u "semantics", [(u "definitionURL", Some (u "x")); (u "viewbox", None)]).
Proof. vm_compute. reflexivity. Qed.
Example c73_html : prepare (u "html") (u "textpath") [(u "viewbox", None)] = (u "textpath", [(u "viewbox", None)]).
Proof. vm_compute. reflexivity. Qed.
Example c73_folded : folded (u "viewbox") /\ folded (u "xlink:href") /\ folded (u "fedropshadow").
Proof. rewrite !folded_spec. repeat split; vm_compute; reflexivity. Qed.
Print Assumptions C73_source_names.
Print Assumptions C73_attributes_partial.
Print Assumptions C73_names_distinct.
Print Assumptions C73_attributes_refuted.
Print Assumptions C73_elements_partial.
Print Assumptions C73_elements_refuted.
Print Assumptions C73_round_trip.
