(* Proofs about ForeignModel. *)
From Coq Require Import NArith List Bool Lia ZifyBool ZifyN String.
From Verif Require Import Str StrFacts AttrModel ForeignModel ForeignSpec.
Import ListNotations.
Open Scope list_scope.
Open Scope N_scope.

(* The names a tag can have: no ASCII capitals (they are folded), no U+212A. *)
Definition folded (k : str) : Prop := forall c, In c k -> is_upper_ascii c = false /\ c <> 8490.
Definition folded_b (k : str) : bool := forallb (fun c => negb (is_upper_ascii c) && negb (c =? 8490)) k.
Lemma folded_spec k : folded k <-> folded_b k = true.
Proof.
  unfold folded, folded_b. rewrite forallb_forall. split; intros H c Hc; specialize (H c Hc).
  - destruct H as [-> H]. cbn. apply negb_true_iff, N.eqb_neq, H.
  - apply andb_true_iff in H. destruct H as [H1 H2]. apply negb_true_iff in H1, H2. now apply N.eqb_neq in H2.
Qed.
Lemma alow_folded k : folded k -> alow k = k.
Proof.
  intro H. unfold alow. rewrite <- (map_id k) at 2. apply map_ext_in. intros c Hc. destruct (H c Hc) as [U _]. unfold alow_c. now rewrite U.
Qed.
Lemma lower_c_big c : 128 <= c -> c <> 8490 -> exists d, In d (lower_c c) /\ 128 <= d.
Proof.
  intros H K. destruct (N.eq_dec c 304) as [->|E]; [exists 775; rewrite lower_c_dotted_I; split; [right; left; reflexivity|lia]|].
  destruct (lower_c_nonascii c H E K) as (d & -> & Hd). exists d. split; [now left|assumption].
Qed.
Lemma lower_ascii_only k : folded k -> is_ascii (lower k) = true -> is_ascii k = true.
Proof.
  intros H L. unfold is_ascii in *. apply forallb_forall. intros c Hc. unfold is_ascii_char. apply N.ltb_lt.
  destruct (N.lt_ge_cases c 128) as [X|X]; [assumption|]. exfalso. destruct (H c Hc) as [_ K]. destruct (lower_c_big c X K) as (d & Hd & Bd).
  rewrite forallb_forall in L. assert (In d (lower k)) as I by (apply in_flat_map; eauto). apply L in I. unfold is_ascii_char in I. apply N.ltb_lt in I. lia.
Qed.
(* For a table with ASCII keys it makes no difference that names are lowered again. *)
Lemma assoc_not_ascii {A} k (l : list (str * A)) : forallb (fun e => is_ascii (fst e)) l = true -> is_ascii k = false -> assoc k l = None.
Proof.
  induction l as [|[k' v] r IH]; [reflexivity|]. cbn [forallb fst]. intros H Hk. apply andb_true_iff in H. destruct H as [H1 H2]. cbn [assoc].
  destruct (str_eqb k k') eqn:E; [apply str_eqb_eq in E; congruence|now apply IH].
Qed.
Lemma assoc_lower {A} k (l : list (str * A)) : forallb (fun e => is_ascii (fst e)) l = true -> folded k -> assoc (lower k) l = assoc k l.
Proof.
  intros Hl Hk. destruct (is_ascii k) eqn:E.
  - rewrite lower_ascii by assumption. now rewrite alow_folded.
  - rewrite (assoc_not_ascii k l Hl E). apply assoc_not_ascii; [assumption|]. destruct (is_ascii (lower k)) eqn:L; [|reflexivity].
    apply lower_ascii_only in L; [congruence|assumption].
Qed.

(* Tables as lists of names. *)
Lemma assoc_mixed k names : match assoc k (map (fun m => (alow m, m)) names) with Some n => n | None => k end = mixed_case names k.
Proof.
  induction names as [|m r IH]; [reflexivity|]. cbn [map assoc mixed_case].
  assert (S : str_eqb k (alow m) = str_eqb (alow m) k) by (destruct (str_eqb k (alow m)) eqn:E, (str_eqb (alow m) k) eqn:F; try reflexivity;
    [apply str_eqb_eq in E; subst; rewrite str_eqb_refl in F; discriminate|apply str_eqb_eq in F; subst; rewrite str_eqb_refl in E; discriminate]).
  rewrite S. destruct (str_eqb (alow m) k); [reflexivity|exact IH].
Qed.
Lemma svg_table : svg_attribute_adjustments = map (fun m => (alow m, m)) svg_attribute_names.
Proof. vm_compute. reflexivity. Qed.
Lemma math_table : mathml_attribute_adjustments = map (fun m => (alow m, m)) [u "definitionURL"].
Proof. vm_compute. reflexivity. Qed.
Lemma element_table : svg_tag_name_adjustments = map (fun m => (alow m, m)) (List.filter (fun m => negb (str_eqb m (u "feDropShadow"))) svg_element_names).
Proof. vm_compute. reflexivity. Qed.
Definition printed (e : option str * str) : str := match e with (Some p, l) => p ++ [58] ++ l | (None, l) => l end.
Lemma foreign_prints : forallb (fun e => str_eqb (fst e) (printed (snd e))) foreign_attribute_adjustments = true.
Proof. vm_compute. reflexivity. Qed.
Lemma foreign_name k : match assoc k foreign_attribute_adjustments with Some (Some p, l) => p ++ [58] ++ l | Some (None, l) => l | None => k end = k.
Proof.
  pose proof foreign_prints as F. induction foreign_attribute_adjustments as [|[k' e] r IH]; [reflexivity|]. cbn [forallb fst snd] in F. apply andb_true_iff in F.
  destruct F as [F1 F2]. cbn [assoc]. destruct (str_eqb k k') eqn:E; [|now apply IH]. apply str_eqb_eq in E. subst. apply str_eqb_eq in F1.
  rewrite F1. now destruct e as [[p|] l].
Qed.
Lemma assoc_in {A} k (l : list (str * A)) v : assoc k l = Some v -> In (k, v) l.
Proof. induction l as [|[k' w] r IH]; [discriminate|]. cbn. destruct (str_eqb k k') eqn:E; [apply str_eqb_eq in E; subst; intro H; injection H as ->; now left|auto]. Qed.
Lemma adjusted_not_foreign : forallb (fun e => match assoc (lower (snd e)) foreign_attribute_adjustments with None => true | _ => false end)
  (svg_attribute_adjustments ++ mathml_attribute_adjustments) = true.
Proof. vm_compute. reflexivity. Qed.

Definition adjusted (namespace k : str) : str :=
  if str_eqb namespace svg then svg_attribute k else if str_eqb namespace math then mathml_attribute k else k.
Lemma attr_name_spec ns k : folded k -> attr_name ns k = adjusted ns k.
Proof.
  intro Hk. unfold attr_name, adjusted, svg_attribute, mathml_attribute. 
  rewrite <- !assoc_mixed, <- svg_table, <- math_table.
  rewrite !assoc_lower by (assumption || (vm_compute; reflexivity)).
  pose proof adjusted_not_foreign as AF. rewrite forallb_forall in AF.
  destruct (str_eqb ns math) eqn:Em.
  - assert (str_eqb ns svg = false) as -> by (apply str_eqb_eq in Em; subst; reflexivity).
    destruct (assoc k mathml_attribute_adjustments) as [n|] eqn:E.
    + apply assoc_in in E. specialize (AF (k, n) (in_or_app _ _ _ (or_intror E))). cbn [snd] in AF. destruct (assoc (lower n) _); [discriminate|reflexivity].
    + rewrite assoc_lower by (assumption || (vm_compute; reflexivity)). apply foreign_name.
  - destruct (str_eqb ns svg) eqn:Es.
    + destruct (assoc k svg_attribute_adjustments) as [n|] eqn:E.
      * apply assoc_in in E. specialize (AF (k, n) (in_or_app _ _ _ (or_introl E))). cbn [snd] in AF. destruct (assoc (lower n) _); [discriminate|reflexivity].
      * rewrite assoc_lower by (assumption || (vm_compute; reflexivity)). apply foreign_name.
    + rewrite assoc_lower by (assumption || (vm_compute; reflexivity)). apply foreign_name.
Qed.

(* Different names stay different: folding an adjusted name gives the name back. *)
Lemma mixed_case_fold names k : folded k -> alow (mixed_case names k) = k.
Proof.
  intro Hk. induction names as [|m r IH]; [now apply alow_folded|]. cbn [mixed_case]. destruct (str_eqb (alow m) k) eqn:E; [now apply str_eqb_eq in E|exact IH].
Qed.
Lemma adjusted_fold ns k : folded k -> alow (adjusted ns k) = k.
Proof. intro H. unfold adjusted. destruct (str_eqb ns svg), (str_eqb ns math); try now apply mixed_case_fold. now apply alow_folded. Qed.
Lemma has_key_false k (l : list (str * option str)) : ~ In k (map fst l) -> has_key k l = false.
Proof.
  intro H. unfold has_key. destruct (existsb _ l) eqn:E; [|reflexivity]. apply existsb_exists in E. destruct E as ([k' v] & Hin & E). apply str_eqb_eq in E. cbn in E. subst.
  exfalso. apply H. apply in_map_iff. now exists (k', v).
Qed.
Lemma prepare_attrs_spec ns l : (forall k, In k (map fst l) -> folded k) -> NoDup (map fst l) ->
  prepare_foreign_attrs ns l = map (fun a => (adjusted ns (fst a), snd a)) l.
Proof.
  intros Hf Hn. unfold prepare_foreign_attrs.
  assert (G : forall acc, (forall k, In k (map fst l) -> ~ In k (map (fun a => alow (fst a)) acc)) ->
    fold_left (fun adjusted0 (a : str * option str) => let n := attr_name ns (fst a) in if has_key n adjusted0 then adjusted0 else adjusted0 ++ [(n, snd a)]) l acc
    = acc ++ map (fun a => (adjusted ns (fst a), snd a)) l).
  { induction l as [|[k v] r IH]; intros acc Ha; [cbn; now rewrite app_nil_r|]. cbn [map fst snd fold_left] in *. inversion Hn as [|? ? Hk Hn']. subst.
    rewrite attr_name_spec by (apply Hf; now left). assert (Fk : folded k) by (apply Hf; now left).
    rewrite has_key_false.
    - rewrite IH.
      + rewrite <- app_assoc. reflexivity.
      + intros k' H'. apply Hf. now right.
      + assumption.
      + intros k' H'. rewrite map_app, in_app_iff. cbn [map fst In]. rewrite adjusted_fold by assumption. intros [X|[X|[]]]; [apply (Ha k'); [now right|assumption]|]. subst k'. contradiction.
    - intro X. apply (Ha k); [now left|]. apply in_map_iff in X. destruct X as (a & E & Hin). apply in_map_iff. exists a. split; [|assumption]. rewrite E. now apply adjusted_fold. }
  apply (G []). intros k _ [].
Qed.
