(* C72: what the constructor runs. *)
From Coq Require Import PeanoNat NArith List Bool Lia.
From Verif Require Import Str StrFacts PlanModel PlanSpec PlanProofs.
Import ListNotations.
Open Scope nat_scope.

(* The constructor's result: fused engine, TypeError, or a raw parse followed by a compiled list. *)
Lemma construct_raw fd dd frag san p ts sp l : construct fd dd frag san p ts = Raw sp l ->
  sp = spans fd san p ts /\ compile_transforms fd (normalize (effective fd dd frag p) (asked san (effective fd dd frag p) ts)) = Some l.
Proof.
  unfold construct. destruct (fused fd dd frag san p ts); [discriminate|].
  destruct (match ts with [] => negb san | _ => false end) eqn:E.
  - intro H. injection H as <- <-. split; [reflexivity|]. destruct ts; [|discriminate]. destruct san; [discriminate|]. reflexivity.
  - rewrite plan_compile, final_normalized. destruct (compile_transforms _ _) as [l'|]; [|discriminate]. intro H. injection H as <- <-. now split.
Qed.

(* What is run, in order, with which policies and hooks: exactly what was asked. *)
Theorem C72_runs_what_was_asked fd dd frag san p ts sp l : construct fd dd frag san p ts = Raw sp l ->
  let d := effective fd dd frag p in
  exists gs, groups (visible (asked san d ts)) gs /\ happens (run l) = expected d (asked san d ts) gs.
Proof.
  intro H. destruct (construct_raw _ _ _ _ _ _ _ _ H) as [_ C]. cbv zeta.
  pose proof (compile_entries fd (effective fd dd frag p) (asked san (effective fd dd frag p) ts)) as E. rewrite C in E. apply E.
Qed.
(* The grouping in stages is unique. *)
Theorem C72_one_grouping l gs gs' : groups l gs -> groups l gs' -> gs = gs'.
Proof. intros H H'. now apply (groups_functional l gs H). Qed.

(* TypeError exactly when something that is no transform stands outside disabled stages. *)
Theorem C72_type_error fd dd frag san p ts :
  construct fd dd frag san p ts = Error <-> exists f, In (TUnknown f) (all_leaves ts).
Proof.
  set (d := effective fd dd frag p).
  assert (U : existsb unknown (all_leaves (asked san d ts)) = true <-> exists f, In (TUnknown f) (all_leaves ts)).
  { rewrite existsb_exists. unfold asked. split.
    - intros (t & Ht & Eu). destruct t; try discriminate. exists f. destruct (san && _); [|assumption]. rewrite all_leaves_app, in_app_iff in Ht. destruct Ht as [|[X|[]]]; [assumption|discriminate].
    - intros (f & Hf). exists (TUnknown f). split; [|reflexivity]. destruct (san && _); [|assumption]. rewrite all_leaves_app, in_app_iff. now left. }
  pose proof (compile_entries fd d (asked san d ts)) as E. unfold construct.
  destruct (fused fd dd frag san p ts) eqn:F.
  { split; [discriminate|]. intros (f & Hf). unfold fused in F. destruct ts; [destruct Hf|]. now rewrite andb_false_r in F. }
  destruct (match ts with [] => negb san | _ => false end) eqn:G.
  { split; [discriminate|]. intros (f & Hf). destruct ts; [destruct Hf|discriminate]. }
  rewrite plan_compile, final_normalized. fold d. destruct (compile_transforms _ _) as [l|].
  - split; [discriminate|]. intro H. apply U in H. destruct E. congruence.
  - split; [|reflexivity]. intros _. now apply U.
Qed.

(* The fused engine is used only where the pipeline would be one Sanitize with the built-in policy. *)
Theorem C72_fused fd dd frag san p ts :
  construct fd dd frag san p ts = Fused <->
  san = true /\ ts = [] /\ (forall q, p = Some q -> p_key q = p_key (if frag then fd else dd)).
Proof.
  assert (F : fused fd dd frag san p ts = true <-> san = true /\ ts = [] /\ (forall q, p = Some q -> p_key q = p_key (if frag then fd else dd))).
  { unfold fused. rewrite !andb_true_iff. destruct ts as [|x r]; [|split; [intros [[_ H] _]; discriminate|intros (_ & H & _); discriminate]].
    change (default_for fd dd frag) with (if frag then fd else dd). destruct p as [q|]; [rewrite N.eqb_eq|]; split.
    - intros [[-> _] E]. repeat split. intros q' H. now injection H as <-.
    - intros (-> & _ & H). auto.
    - intros [[-> _] _]. repeat split. discriminate.
    - intros (-> & _). auto. }
  rewrite <- F. unfold construct. destruct (fused fd dd frag san p ts); [tauto|]. split; [|discriminate].
  destruct (match ts with [] => negb san | _ => false end); [discriminate|]. destruct (plan _ _); discriminate.
Qed.

(* sanitize=True sanitizes the tree, when no Sanitize in the list is disabled; and nothing comes after the Sanitize that the constructor adds. *)
Theorem C72_sanitizes_partial fd dd frag p ts sp l : construct fd dd frag true p ts = Raw sp l ->
  (forall t, In t (all_leaves ts) -> is_sanitize t = true -> enabled t = true) ->
  exists before q cb rep after, happens (run l) = before ++ map Do (sanitize_ops q cb rep) ++ after.
Proof.
  intros H Hen. destruct (C72_runs_what_was_asked _ _ _ _ _ _ _ _ H) as (gs & G & ->). set (d := effective fd dd frag p) in *.
  destruct (asked_has true d ts eq_refl Hen) as (t & Ht & Hs & He). destruct (expected_contains d _ gs t G Ht He) as (a & b & ->).
  destruct t; try discriminate. cbn [ops]. now exists a, (own_or d p0), callback, report, b.
Qed.
Theorem C72_sanitizes_last fd dd frag p ts sp l : construct fd dd frag true p ts = Raw sp l ->
  (forall t, In t (all_leaves ts) -> is_sanitize t = false) ->
  exists before, happens (run l) = before ++ map Do (sanitize_ops (effective fd dd frag p) None None).
Proof.
  intros H Hno. destruct (C72_runs_what_was_asked _ _ _ _ _ _ _ _ H) as (gs & G & ->). set (d := effective fd dd frag p) in *.
  assert (A : asked true d ts = ts ++ [Leaf (TSanitize (Some d) true None None)]).
  { unfold asked. destruct (existsb is_sanitize (all_leaves ts)) eqn:E; [|reflexivity]. apply existsb_exists in E. destruct E as (t & Ht & E). rewrite Hno in E by assumption. discriminate. }
  rewrite A in *. destruct (expected_last d ts gs _ G eq_refl) as [a ->]. exists a. reflexivity.
Qed.
(* A disabled Sanitize switches sanitizing off although sanitize=True: docs/transforms.md:223 says it is skipped. *)
Definition plain_policy (key : N) := Pol key false 1000 true false false true true false.
Theorem C72_sanitizes_refuted : exists ts l, construct (plain_policy 1) (plain_policy 2) true true None ts = Raw false l
  /\ happens (run l) = [] /\ active ts = [] /\ construct (plain_policy 1) (plain_policy 2) true true None (visible []) = Fused.
Proof. exists [Leaf (TSanitize None false None None)], []. repeat split. Qed.

(* After the parts of a Sanitize nothing else comes in the same walk: what follows it works on a sanitized tree. *)
Theorem C72_sanitize_ends_its_walk fd dd frag san p ts sp l w a c b : construct fd dd frag san p ts = Raw sp l ->
  In (EWalk w) (run l) -> w = a ++ c :: b -> of_sanitize c = true -> forallb of_sanitize b = true.
Proof.
  intros H Hw -> Hc. destruct (construct_raw _ _ _ _ _ _ _ _ H) as [_ C]. apply closed_compile in C.
  apply schedule_walks in Hw; [|reflexivity]. destruct Hw as [W (x & y & E)]. cbn [app] in E. subst l. apply closed_part in C.
  rewrite forallb_app in W. apply andb_true_iff in W. destruct W as [_ W]. cbn in W. apply andb_true_iff in W. destruct W as [Wc W].
  rewrite <- app_assoc in C. cbn [app] in C. apply closed_part in C.
  clear - C Hc W. revert c C Hc. induction b as [|d b IH]; intros c [C1 C2] Hc; [reflexivity|]. cbn in W. apply andb_true_iff in W. destruct W as [Wd Wb].
  cbn [app] in C1, C2. destruct (C1 Hc) as [D|D]; [|congruence]. cbn. rewrite D. exact (IH Wb d C2 D).
Qed.
(* But what comes before it may share its walk: an Edit that inserts or changes nodes behind the walk escapes the final Sanitize.  [onclick] is the
   node with an unsafe attribute, if any. *)
Definition edit_parent (n : nat) (onclick : option nat) : option nat := if n =? 1 then Some 0 else onclick.
Definition clean (n : nat) (onclick : option nat) : option nat := match onclick with Some m => if n =? m then None else Some m | None => None end.
Theorem C72_final_sanitize_partial (A : Type) (bad : A -> nat -> Prop) (items : list (nat -> A -> A)) (f : nat -> A -> A) nodes a :
  (forall n x, ~ bad (f n x) n) -> (forall n m x, bad (f n x) m -> bad x m) ->
  forall n, In n nodes -> ~ bad (walk_nodes [f] nodes (walk_nodes items nodes a)) n.
Proof.
  intros H1 H2. generalize (walk_nodes items nodes a). unfold walk_nodes. cbn [fold_left].
  assert (K : forall ns x m, bad (fold_left (fun a n => f n a) ns x) m -> bad x m).
  { induction ns as [|n ns IH]; intros x m H; [exact H|]. cbn [fold_left] in H. apply IH, H2 in H. exact H. }
  induction nodes as [|n ns IH]; intros x m Hm; [destruct Hm|]. cbn [fold_left]. destruct Hm as [->|Hm]; [|now apply IH]. intro B. apply K in B. now apply H1 in B.
Qed.
Theorem C72_final_sanitize_refuted :
  (exists w r l, construct (plain_policy 1) (plain_policy 2) true true None [Leaf (TPlain 7 true)] = Raw false l
    /\ run l = EWalk (CWalk (WPlain 7) :: CWalk (WForeign (plain_policy 1) None None) :: w) :: r)
  /\ walk_nodes [edit_parent; clean] [0; 1] None = Some 0
  /\ walk_nodes [clean] [0; 1] (walk_nodes [edit_parent] [0; 1] None) = None.
Proof. split; [|split; reflexivity]. do 3 eexists. split; reflexivity. Qed.

(* Whatever will escape a tag has the source text of the tags. *)
Theorem C72_source_text_for_escape fd dd frag san p ts sp l : construct fd dd frag san p ts = Raw sp l ->
  p_escape fd = false -> p_escape dd = false -> let d := effective fd dd frag p in
  (exists t, In t (all_leaves (asked san d ts)) /\ escapes d t = true) -> sp = true.
Proof.
  intros H Hf Hd d (t & Ht & He). destruct (construct_raw _ _ _ _ _ _ _ _ H) as [-> _].
  unfold spans. change (match ts with [] => Req false false false None None | _ :: _ => parse_requirements ts p fd end) with (reqs fd p ts).
  assert (De : p_escape d = true -> exists q, p = Some q /\ p_escape q = true).
  { unfold d, effective. destruct p as [q|]; cbn; [intro E; now exists q|]. destruct frag; congruence. }
  assert (In_ts : In t (all_leaves ts) -> track_tag_spans (reqs fd p ts) = true).
  { intro Hin. destruct ts as [|s r]; [destruct Hin|]. unfold reqs, parse_requirements. rewrite flatten_leaves.
    destruct (require_fold p fd (all_leaves (s :: r)) (Req false false false None None)) as (_ & _ & C & D).
    unfold escapes in He. apply andb_true_iff in He. destruct He as [_ He].
    destruct t as [|f e| | | | | | |q e cb rep| |]; try discriminate; [apply (C _ Hin); eauto|].
    apply (D _ _ _ _ Hin). destruct q as [q|]; cbn in He |- *; [exact He|]. destruct (De He) as (q & -> & Eq). exact Eq. }
  unfold asked in Ht. destruct (san && negb (existsb is_sanitize (all_leaves ts))) eqn:A; [|rewrite In_ts by assumption; reflexivity].
  rewrite all_leaves_app, in_app_iff in Ht. destruct Ht as [Ht|Ht]; [rewrite In_ts by assumption; reflexivity|].
  destruct Ht as [<-|[]]. cbn in He. rewrite reqs_has. destruct (De He) as (q & -> & Eq). rewrite Eq, andb_true_r, A. apply orb_true_r.
Qed.

(* Selectors are parsed within the limits of the last enabled Sanitize. *)
Theorem C72_parse_limits fd dd frag san p ts dl : let d := effective fd dd frag p in
  parse_limits fd dl (final_transforms fd dd frag san p ts) = documented_limits d dl (asked san d ts).
Proof.
  intro d. rewrite final_normalized. fold d. unfold parse_limits, documented_limits. rewrite flatten_leaves, all_leaves_normalize.
  rewrite <- (last_bind d fd). rewrite last_now.
  change (fun t : transform => PlanModel.enabled t && is_sanitize t) with (fun t : transform => PlanModel.enabled t && match t with TSanitize _ _ _ _ => true | _ => false end).
  destruct (List.find _ _) as [t|] eqn:E; [|reflexivity]. apply find_some in E. destruct E as [_ E]. apply andb_true_iff in E. destruct E as [_ E]. destruct t; try discriminate. reflexivity.
Qed.
(* So are they matched, when there is no HardenRawtext. *)
Theorem C72_match_limits_partial fd dd frag san p ts sp l dl : construct fd dd frag san p ts = Raw sp l ->
  (forall t, In t (all_leaves ts) -> hardens t = false) ->
  let d := effective fd dd frag p in match_limits dl l = documented_limits d dl (asked san d ts).
Proof.
  intros H Hh d. destruct (construct_raw _ _ _ _ _ _ _ _ H) as [_ C]. fold d in C. 
  rewrite (compile_limits fd dl (normalize d (asked san d ts)) l); [|rewrite all_leaves_normalize, hardens_bind, asked_hardens|exact C].
  - rewrite all_leaves_normalize, last_bind. reflexivity.
  - destruct (existsb hardens (all_leaves ts)) eqn:E; [|reflexivity]. apply existsb_exists in E. destruct E as (t & Ht & E). now rewrite Hh in E.
Qed.
(* A HardenRawtext changes the limits of matching but not those of parsing: docs/api.md:510 speaks of Sanitize alone. *)
Theorem C72_match_limits_refuted : exists ts l d dl, construct (plain_policy 1) (plain_policy 2) true false None ts = Raw false l
  /\ d = effective (plain_policy 1) (plain_policy 2) true None
  /\ match_limits dl l <> documented_limits d dl (asked false d ts)
  /\ parse_limits (plain_policy 1) dl (final_transforms (plain_policy 1) (plain_policy 2) true false None ts) = documented_limits d dl (asked false d ts).
Proof. exists [Leaf (THarden None true); Leaf (TPlain 1 true)], [CHarden (plain_policy 1); CWalk (WPlain 1)], (plain_policy 1), 5%N. repeat split. discriminate. Qed.

(* Attribute functions on the same selector are matched once for all: the same as one after the other when they keep the match. *)
Theorem C72_chained_attributes_partial (A : Type) (m : A -> bool) (fs : list (A -> option A)) :
  (forall f a b, In f fs -> m a = true -> f a = Some b -> m b = true) ->
  forall a, run_attrs_chain m fs a = fold_left (fun x f => run_attrs m f x) fs a.
Proof.
  intros H a. unfold run_attrs_chain. destruct (m a) eqn:E.
  - revert a E. induction fs as [|f r IH]; intros a E; [reflexivity|]. cbn [fold_left]. unfold run_attrs at 2. rewrite E. apply IH.
    + intros g x y Hg. apply H. now right.
    + destruct (f a) as [b|] eqn:F; [|assumption]. apply (H f a b); [now left|assumption|assumption].
  - induction fs as [|f r IH]; [reflexivity|]. cbn [fold_left]. unfold run_attrs at 2. rewrite E. apply IH. intros g x y Hg. apply H. now right.
Qed.
(* Otherwise it differs: EditAttrs(".x", drop the class) then EditAttrs(".x", set title) sets the title of a node without the class. *)
Theorem C72_chained_attributes_refuted : exists (m : bool * bool -> bool) f g a,
  run_attrs_chain m [f; g] a <> run_attrs m g (run_attrs m f a)
  /\ exists sel, construct (plain_policy 1) (plain_policy 2) true false None [Leaf (TAttrs sel 1 true); Leaf (TAttrs sel 2 true)] = Raw false [CAttrsChain sel false [1%N; 2%N]].
Proof.
  exists fst, (fun '(_, t) => Some (false, t)), (fun '(c, _) => Some (c, true)), (true, false). split; [discriminate|]. exists (u ".x"). reflexivity.
Qed.

(* Examples. *)
Example c72_stages : exists sp l,
  construct (plain_policy 1) (plain_policy 2) true true None
    [Leaf (TPlain 1 true); Stage false (Some 9%N) None [Leaf (TPlain 8 true)]; Leaf (TPlain 2 false); Stage true None (Some 5%N) [Leaf (TPrune 3 true); Leaf (TPrune 4 true)]; Leaf (TDocument 6 true)] = Raw sp l
  /\ happens (run l) = [Hook 0 None None; Do (PDo 1); Hook 1 None (Some 5%N); Do (PPrune 3); Do (PPrune 4); Hook 2 None None; Do (PDocument 6)]
       ++ map Do (sanitize_ops (plain_policy 1) None None).
Proof. do 2 eexists. split; reflexivity. Qed.
Example c72_policies : exists sp l,
  construct (plain_policy 1) (plain_policy 2) false true (Some (plain_policy 3))
    [Stage true None None [Leaf (TSanitize None true None None); Leaf (THarden (Some (plain_policy 4)) true)]] = Raw sp l
  /\ happens (run l) = Hook 0 None None :: map Do (sanitize_ops (plain_policy 3) None None) ++ [Do (PRawtext (plain_policy 4))].
Proof. do 2 eexists. split; reflexivity. Qed.
Example c72_default : construct (plain_policy 1) (plain_policy 2) false true None [] = Fused /\ construct (plain_policy 1) (plain_policy 2) false true (Some (plain_policy 2)) [] = Fused
  /\ exists l, construct (plain_policy 1) (plain_policy 2) false true (Some (plain_policy 1)) [] = Raw false l.
Proof. repeat split. eexists. reflexivity. Qed.
Example c72_escape : exists l, construct (plain_policy 1) (plain_policy 2) false true None [Leaf (TEscape 1 true)] = Raw true l.
Proof. eexists. reflexivity. Qed.
Print Assumptions C72_runs_what_was_asked.
Print Assumptions C72_one_grouping.
Print Assumptions C72_type_error.
Print Assumptions C72_fused.
Print Assumptions C72_sanitizes_partial.
Print Assumptions C72_sanitizes_last.
Print Assumptions C72_sanitizes_refuted.
Print Assumptions C72_sanitize_ends_its_walk.
Print Assumptions C72_final_sanitize_partial.
Print Assumptions C72_final_sanitize_refuted.
Print Assumptions C72_source_text_for_escape.
Print Assumptions C72_parse_limits.
Print Assumptions C72_match_limits_partial.
Print Assumptions C72_match_limits_refuted.
Print Assumptions C72_chained_attributes_partial.
Print Assumptions C72_chained_attributes_refuted.
