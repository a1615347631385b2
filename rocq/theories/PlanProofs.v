(* Proofs about PlanModel. *)
From Coq Require Import PeanoNat NArith List Bool Lia.
From Verif Require Import Str StrFacts PlanModel PlanSpec.
Import ListNotations.
Open Scope nat_scope.

Definition entry_of (c : compiled) : list entry :=
  match c with
  | CHook i cb rep => [Hook i cb rep]
  | CDocument f => [Do (PDocument f)] | CPrune f => [Do (PPrune f)] | CHarden p => [Do (PRawtext p)]
  | CBoundary | CLimits _ => []
  | _ => map Do (item_prims c)
  end.
Definition entries (l : list compiled) : list entry := flat_map entry_of l.
Lemma entries_app a b : entries (a ++ b) = entries a ++ entries b.
Proof. apply flat_map_app. Qed.
Lemma happens_app a b : happens (a ++ b) = happens a ++ happens b.
Proof. apply flat_map_app. Qed.

Fixpoint skip_prunes (l : list compiled) : list compiled := match l with CPrune _ :: r => skip_prunes r | _ => l end.
Lemma prunes_split l : entries l = map (fun f => Do (PPrune f)) (prunes l) ++ entries (skip_prunes l).
Proof. induction l as [|c r IH]; [reflexivity|]. destruct c; try reflexivity. cbn [prunes skip_prunes map app]. rewrite <- IH. reflexivity. Qed.
Lemma happens_flush p : happens (flush p) = map Do (flat_map item_prims p).
Proof. destruct p; [reflexivity|]. unfold happens. cbn [flush flat_map happens1]. now rewrite app_nil_r. Qed.
Lemma walk_entry c : is_walk c = true -> entry_of c = map Do (item_prims c).
Proof. destruct c; cbn; congruence. Qed.

Lemma happens_schedule l : (forall pending, happens (schedule pending false l) = map Do (flat_map item_prims pending) ++ entries l)
  /\ happens (schedule [] true l) = entries (skip_prunes l).
Proof.
  induction l as [|c r [IHa IHb]].
  - split; [intro p; cbn [schedule]; rewrite happens_flush; cbn; now rewrite app_nil_r|reflexivity].
  - assert (W : is_walk c = true -> forall pending b, happens (schedule pending b (c :: r)) = map Do (flat_map item_prims pending) ++ entries (c :: r)).
    { intros Hw pending b. cbn [schedule]. rewrite Hw, IHa, flat_map_app, map_app, <- app_assoc. f_equal.
      change (entries (c :: r)) with (entry_of c ++ entries r). rewrite walk_entry by assumption. cbn [flat_map]. now rewrite app_nil_r. }
    destruct (is_walk c) eqn:Hw.
    + split; [intro; now apply W|]. rewrite W by reflexivity. cbn [flat_map map app]. destruct c; try discriminate; reflexivity.
    + split.
      * intro pending. cbn [schedule]. rewrite Hw, happens_app, happens_flush. f_equal.
        destruct c; try discriminate; cbn [entries flat_map entry_of app]; unfold happens; cbn [flat_map happens1 app]; fold happens;
          change (flat_map happens1 ?x) with (happens x); rewrite ?IHa; try reflexivity.
        rewrite IHb. change (flat_map entry_of r) with (entries r). cbn [map app]. now rewrite (prunes_split r).
      * cbn [schedule]. rewrite Hw. cbn [flush app].
        destruct c; try discriminate; cbn [skip_prunes entries flat_map entry_of app]; unfold happens; cbn [flat_map happens1 app]; fold happens;
          change (flat_map happens1 ?x) with (happens x); rewrite ?IHa, ?IHb; reflexivity.
Qed.
Lemma happens_run l : happens (run l) = entries l.
Proof. unfold run. now rewrite (proj1 (happens_schedule l) []). Qed.

Lemma append_entries acc item : entries (rev (append_compiled acc item)) = entries (rev acc) ++ entry_of item.
Proof.
  assert (P : entries (rev (item :: acc)) = entries (rev acc) ++ entry_of item).
  { cbn [rev]. rewrite entries_app. cbn [entries flat_map]. now rewrite app_nil_r. }
  destruct acc as [|b r]; [destruct item; exact P|].
  destruct item; try exact P; destruct b; try exact P; cbn [append_compiled];
    (match goal with |- context [if ?x then _ else _] => destruct x eqn:E end; [|exact P]);
    apply andb_true_iff in E; destruct E as [E _]; apply str_eqb_eq in E; subst;
    cbn [rev]; rewrite !entries_app; cbn [entries flat_map entry_of item_prims]; rewrite ?app_nil_r, <- app_assoc; f_equal;
    rewrite ?map_app; reflexivity.
Qed.
Lemma fold_append_entries items acc : entries (rev (fold_left append_compiled items acc)) = entries (rev acc) ++ entries items.
Proof.
  revert acc. induction items as [|i r IH]; intro acc; cbn [fold_left]; [cbn; now rewrite app_nil_r|].
  rewrite IH, append_entries, <- app_assoc. reflexivity.
Qed.
Lemma cons_entries c acc : entries (rev (c :: acc)) = entries (rev acc) ++ entry_of c.
Proof. cbn [rev]. rewrite entries_app. cbn [entries flat_map]. now rewrite app_nil_r. Qed.

Lemma sanitize_entries default p cb rep : entries (compile_sanitize default p cb rep) = map Do (sanitize_ops (own_or default p) cb rep).
Proof.
  unfold compile_sanitize, sanitize_ops. change (match p with Some q => q | None => default end) with (own_or default p).
  set (q := own_or default p). destruct (p_strip q), (p_rel q), (p_comments q), (p_doctype q), (p_rawtext q); reflexivity.
Qed.
Lemma lower_entries default acc t : entries (rev (PlanModel.lower default acc t)) = entries (rev acc) ++ map Do (ops default t).
Proof.
  destruct t; cbn [PlanModel.lower ops]; try (rewrite cons_entries; reflexivity).
  - apply append_entries. - apply append_entries.
  - destruct tokens; [apply cons_entries|cbn; now rewrite app_nil_r].
  - rewrite fold_append_entries, sanitize_entries. reflexivity.
  - cbn; now rewrite app_nil_r.
Qed.
Lemma flat_entries default ts : entries (compile_flat default ts) = map Do (flat_map (ops default) (filter enabled ts)).
Proof.
  unfold compile_flat.
  assert (G : forall acc, entries (rev (fold_left (fun acc t => if enabled t then PlanModel.lower default acc t else acc) ts acc))
    = entries (rev acc) ++ map Do (flat_map (ops default) (filter enabled ts))).
  { induction ts as [|t r IH]; intro acc; cbn [fold_left filter]; [cbn; now rewrite app_nil_r|].
    rewrite IH. destruct (enabled t); [|reflexivity]. rewrite lower_entries, <- app_assoc. f_equal. cbn [flat_map]. now rewrite map_app. }
  now rewrite G.
Qed.

(* Induction on specs. *)
Section SpecInd.
  Variable P : spec -> Prop.
  Hypothesis HL : forall t, P (Leaf t).
  Hypothesis HS : forall en cb rep l, Forall P l -> P (Stage en cb rep l).
  Fixpoint spec_ind2 (s : spec) : P s :=
    match s with
    | Leaf t => HL t
    | Stage en cb rep l => HS en cb rep l ((fix go l := match l return Forall P l with [] => Forall_nil _ | x :: r => Forall_cons _ (spec_ind2 x) (go r) end) l)
    end.
End SpecInd.

Lemma flat_map_ext_Forall {A B} (f g : A -> list B) l : Forall (fun x => f x = g x) l -> flat_map f l = flat_map g l.
Proof. induction 1; cbn; congruence. Qed.
Lemma flatten1_leaves s : flatten1 s = leaves s.
Proof. induction s using spec_ind2; cbn; [reflexivity|]. destruct en; [now apply flat_map_ext_Forall|reflexivity]. Qed.
Lemma flatten_leaves l : flatten l = all_leaves l.
Proof. apply flat_map_ext. apply flatten1_leaves. Qed.

Definition bind (d : policy) (t : transform) : transform :=
  match t with TSanitize None e cb rep => TSanitize (Some d) e cb rep | THarden None e => THarden (Some d) e | _ => t end.
Lemma leaves_normalize d s : leaves (normalize1 d s) = map (bind d) (leaves s).
Proof.
  induction s using spec_ind2; cbn.
  - destruct t; try reflexivity; destruct p; reflexivity.
  - destruct en; [|reflexivity]. induction H as [|x r Hx Hr IH]; [reflexivity|]. cbn. now rewrite Hx, IH, map_app.
Qed.
Lemma all_leaves_normalize d l : all_leaves (normalize d l) = map (bind d) (all_leaves l).
Proof. induction l as [|x r IH]; [reflexivity|]. cbn. change (flat_map leaves ?x) with (all_leaves x) in *. unfold normalize in IH. now rewrite IH, leaves_normalize, map_app. Qed.
Lemma enabled_bind d t : enabled (bind d t) = enabled t.
Proof. destruct t; try reflexivity; destruct p; reflexivity. Qed.
Lemma ops_bind d d' t : ops d' (bind d t) = ops d t.
Proof. destruct t; try reflexivity; destruct p; reflexivity. Qed.
Lemma active_normalize d d' l : flat_map (ops d') (active (normalize d l)) = flat_map (ops d) (active l).
Proof.
  unfold active. rewrite all_leaves_normalize. induction (all_leaves l) as [|t r IH]; [reflexivity|]. cbn [map filter]. rewrite enabled_bind.
  destruct (enabled t); [|assumption]. cbn [flat_map]. now rewrite ops_bind, IH.
Qed.
Lemma staged_normalize d l : staged (normalize d l) = staged l.
Proof.
  unfold staged, normalize. rewrite <- (map_id l) at 2. induction l as [|x r IH]; [reflexivity|]. cbn [map existsb]. rewrite IH. f_equal.
  destruct x as [t|]; [|reflexivity]. destruct t; try reflexivity; destruct p; reflexivity.
Qed.

(* Stages. *)
Lemma stages_entries default i gs : entries (compile_stages default i gs) = stage_entries default i gs.
Proof.
  revert i. induction gs as [|[[cb rep] l] r IH]; intro i; [reflexivity|]. cbn [compile_stages stage_entries]. rewrite entries_app, IH. f_equal.
  unfold compile_stage. rewrite !entries_app.
  assert (B : entries (if i =? 0 then [] else [CBoundary]) = []) by now destruct (i =? 0). rewrite B. cbn [app].
  change (entries [CHook i cb rep]) with [Hook i cb rep]. cbn [app]. f_equal.
  unfold active. rewrite <- (flatten_leaves l). induction (flatten l) as [|t ts IHt]; [reflexivity|].
  cbn [flat_map]. rewrite entries_app, IHt, flat_entries. cbn [filter]. destruct (enabled t); cbn [flat_map]; [|reflexivity].
  now rewrite !map_app, app_nil_r.
Qed.
Lemma entries_normalize d d' i gs : stage_entries d' i (map (fun '(cb, rep, l) => (cb, rep, normalize d l)) gs) = stage_entries d i gs.
Proof. revert i. induction gs as [|[[cb rep] l] r IH]; intro i; [reflexivity|]. cbn [map stage_entries]. now rewrite IH, active_normalize. Qed.

Lemma forallb_app_leaf a b : forallb leaf (a ++ b) = forallb leaf a && forallb leaf b.
Proof. apply forallb_app. Qed.
Lemma split_go_groups specs : forall pending, forallb leaf pending = true -> groups (pending ++ visible specs) (split_go specs pending).
Proof.
  induction specs as [|s r IH]; intros pending Hp.
  - cbn [visible filter split_go]. rewrite app_nil_r. destruct pending as [|x p]; [constructor|].
    rewrite <- (app_nil_r (x :: p)) at 1. apply groups_leaves; [discriminate|assumption|discriminate|constructor].
  - destruct s as [t|en cb rep l].
    + cbn [split_go]. specialize (IH (pending ++ [Leaf t])). rewrite <- app_assoc in IH. apply IH. rewrite forallb_app, Hp. reflexivity.
    + cbn [split_go]. destruct en; [|now apply IH].
      change (visible (Stage true cb rep l :: r)) with (Stage true cb rep l :: visible r).
      specialize (IH [] eq_refl). destruct pending as [|x p]; [now constructor|].
      apply (groups_leaves (x :: p)); [discriminate|assumption| |now constructor].
      intros s r' H. injection H as <- _. reflexivity.
Qed.
Lemma groups_functional l gs : groups l gs -> forall gs', groups l gs' -> gs = gs'.
Proof.
  induction 1 as [|en cb rep l r gs H IH|ls r gs Hne Hl Hr H IH]; intros gs' H'.
  - inversion H' as [| |ls r gs Hne Hl Hr H Heq]; [reflexivity|]. subst. destruct ls; [congruence|discriminate].
  - inversion H' as [|? ? ? ? ? ? H1|ls r' gs0 Hne Hl Hr H1 Heq]; subst; [f_equal; now apply IH|].
    destruct ls as [|x ls]; [congruence|]. injection Heq as -> _. discriminate.
  - remember (ls ++ r) as m eqn:Em. destruct H' as [|en cb rep l r' gs' H1|ls' r' gs' Hne' Hl' Hr' H1].
    + destruct ls; [congruence|discriminate].
    + destruct ls as [|x ls]; [congruence|]. injection Em as <- _. discriminate.
    + assert (K : ls' = ls /\ r' = r).
      { clear - Em Hl Hl' Hr Hr'. revert ls' Em Hl'. induction ls as [|x ls IH]; intros ls' Em Hl'.
        - destruct ls' as [|y ls']; [now split|]. exfalso. cbn in Em. cbn in Hl'. apply andb_true_iff in Hl'. specialize (Hr y (ls' ++ r') (eq_sym Em)).
          destruct Hl'. congruence.
        - destruct ls' as [|y ls'].
          + exfalso. cbn in Em. cbn in Hl. apply andb_true_iff in Hl. specialize (Hr' x (ls ++ r) Em). destruct Hl. congruence.
          + cbn in Em. injection Em as -> Em. cbn in Hl, Hl'. apply andb_true_iff in Hl, Hl'. destruct (IH (proj2 Hl) ls' Em (proj2 Hl')) as [-> ->]. now split. }
      destruct K as [-> ->]. f_equal. now apply IH.
Qed.
Lemma split_go_normalize d specs : forall pending,
  split_go (normalize d specs) (normalize d pending) = map (fun '(cb, rep, l) => (cb, rep, normalize d l)) (split_go specs pending).
Proof.
  induction specs as [|s r IH]; intro pending.
  - destruct pending; reflexivity.
  - destruct s as [t|en cb rep l].
    + specialize (IH (pending ++ [Leaf t])). unfold normalize in IH at 2. rewrite map_app in IH. cbn [map] in IH.
      assert (exists t', normalize1 d (Leaf t) = Leaf t') as [t' E] by (destruct t; try (eexists; reflexivity); destruct p; eexists; reflexivity).
      change (normalize d (Leaf t :: r)) with (normalize1 d (Leaf t) :: normalize d r). rewrite E in *. cbn [split_go]. exact IH.
    + change (normalize d (Stage en cb rep l :: r)) with (Stage en cb rep (normalize d l) :: normalize d r). cbn [split_go].
      destruct en; [|apply IH]. rewrite map_app. cbn [map]. rewrite <- (IH []). destruct pending; reflexivity.
Qed.
Lemma is_stage_staged l : existsb is_stage l = staged l.
Proof. unfold staged. induction l as [|s r IH]; [reflexivity|]. cbn. rewrite IH. destruct s as [|en ? ? ?]; [reflexivity|]. now destruct en. Qed.
Lemma split_nonempty specs : staged specs = true -> forall pending, split_go specs pending <> [].
Proof.
  induction specs as [|s r IH]; [discriminate|]. intros H pending. destruct s as [t|en cb rep l]; [now apply IH|]. cbn [split_go].
  destruct en; [destruct pending; discriminate|now apply IH].
Qed.

Lemma existsb_map_bind d l : existsb unknown (map (bind d) l) = existsb unknown l.
Proof. induction l as [|t r IH]; [reflexivity|]. cbn. rewrite IH. f_equal. destruct t; try reflexivity; destruct p; reflexivity. Qed.

(* compile_transforms on the list with its policies bound. *)
Lemma compile_entries default d specs :
  match compile_transforms default (normalize d specs) with
  | None => existsb unknown (all_leaves specs) = true
  | Some l => existsb unknown (all_leaves specs) = false /\ exists gs, groups (visible specs) gs /\ happens (run l) = expected d specs gs
  end.
Proof.
  destruct specs as [|s r].
  { split; [reflexivity|]. exists []. split; [constructor|reflexivity]. }
  unfold compile_transforms. change (normalize d (s :: r)) with (normalize1 d s :: normalize d r) at 1. cbv iota.
  rewrite flatten_leaves, all_leaves_normalize, existsb_map_bind.
  destruct (existsb unknown (all_leaves (s :: r))) eqn:U; [reflexivity|].
  set (specs := s :: r) in *. unfold split. rewrite is_stage_staged, staged_normalize. unfold expected.
  pose proof (split_go_groups specs [] eq_refl) as G. cbn [app] in G.
  destruct (staged specs) eqn:St.
  - pose proof (split_go_normalize d specs []) as N. change (normalize d []) with (@nil spec) in N. rewrite N.
    destruct (split_go specs []) as [|g gs] eqn:Eg; [now apply split_nonempty in Eg|].
    cbn [map]. split; [reflexivity|]. exists (g :: gs). split; [assumption|]. rewrite happens_run.
    rewrite stages_entries. change ((let '(cb, rep, l) := g in (cb, rep, normalize d l)) :: map (fun '(cb, rep, l) => (cb, rep, normalize d l)) gs)
      with (map (fun '(cb, rep, l) => (cb, rep, normalize d l)) (g :: gs)). apply entries_normalize.
  - split; [reflexivity|]. exists (split_go specs []). split; [assumption|]. rewrite happens_run, flat_entries.
    rewrite <- all_leaves_normalize. change (filter enabled (all_leaves (normalize d specs))) with (active (normalize d specs)). now rewrite active_normalize.
Qed.

(* Requirements. *)
Lemma require_fold fb default ts r : let r' := fold_left (require fb default) ts r in
  has_sanitize r' = has_sanitize r || existsb is_sanitize ts
  /\ (track_tag_spans r = true -> track_tag_spans r' = true)
  /\ (forall t, In t ts -> (exists f e, t = TEscape f e) -> track_tag_spans r' = true)
  /\ (forall p e cb rep, In (TSanitize p e cb rep) ts -> p_escape (match or_else p fb with Some q => q | None => default end) = true -> track_tag_spans r' = true).
Proof.
  revert r. induction ts as [|t ts IH]; intro r; cbn [fold_left].
  - cbn. rewrite orb_false_r. repeat split; try tauto.
  - specialize (IH (require fb default r t)). cbv zeta in IH |- *. destruct IH as (A & B & C & D). repeat split.
    + rewrite A. cbn [existsb]. rewrite orb_assoc. f_equal. destruct t; cbn; rewrite ?orb_false_r, ?orb_true_r; reflexivity.
    + intro H. apply B. destruct t; cbn; rewrite ?H; reflexivity.
    + intros t' [->|H] E; [|eauto]. apply B. destruct E as (f & e & ->). reflexivity.
    + intros p e cb rep [->|H] E; [|eauto]. apply B. cbn. rewrite E. apply orb_true_r.
Qed.
Definition reqs (fd : policy) (p : option policy) (ts : list spec) : requirements :=
  match ts with [] => Req false false false None None | _ => parse_requirements ts p fd end.
Lemma reqs_has fd p ts : has_sanitize (reqs fd p ts) = existsb is_sanitize (all_leaves ts).
Proof. destruct ts as [|s r]; [reflexivity|]. unfold reqs, parse_requirements. rewrite (proj1 (require_fold p fd _ _)), flatten_leaves. reflexivity. Qed.
Lemma normalize_sanitize d l : normalize d l ++ [Leaf (TSanitize (Some d) true None None)] = normalize d (l ++ [Leaf (TSanitize (Some d) true None None)]).
Proof. unfold normalize. rewrite map_app. reflexivity. Qed.
Lemma final_normalized fd dd frag san p ts :
  final_transforms fd dd frag san p ts = normalize (effective fd dd frag p) (asked san (effective fd dd frag p) ts).
Proof.
  unfold final_transforms. change (match ts with [] => Req false false false None None | _ :: _ => parse_requirements ts p fd end) with (reqs fd p ts).
  rewrite reqs_has. change (match p with Some q => q | None => default_for fd dd frag end) with (effective fd dd frag p).
  unfold asked. destruct ts as [|s r].
  - destruct (san && negb (existsb is_sanitize (all_leaves []))); reflexivity.
  - destruct (san && negb (existsb is_sanitize (all_leaves (s :: r)))); [apply normalize_sanitize|reflexivity].
Qed.
Lemma plan_compile default l : plan default l = compile_transforms default l.
Proof.
  destruct l as [|[t|] [|]]; try reflexivity; (destruct t as [| | | | | | | |p en cb rep| |]; try reflexivity); destruct p, en, cb, rep; reflexivity.
Qed.

(* Where the sanitizer is. *)
Lemma stage_entries_app d i a b : stage_entries d i (a ++ b) = stage_entries d i a ++ stage_entries d (i + List.length a) b.
Proof.
  revert i. induction a as [|[[cb rep] l] r IH]; intro i.
  - cbn [app stage_entries List.length]. now rewrite Nat.add_0_r.
  - cbn [app stage_entries List.length]. rewrite IH, <- app_assoc. rewrite Nat.add_succ_comm. reflexivity.
Qed.
Definition group_spec (g : option N * option N * list spec) : list spec := let '(_, _, l) := g in l.
Lemma all_leaves_app a b : all_leaves (a ++ b) = all_leaves a ++ all_leaves b.
Proof. apply flat_map_app. Qed.
Lemma split_go_leaves specs : forall pending, flat_map (fun g => all_leaves (group_spec g)) (split_go specs pending) = all_leaves pending ++ all_leaves specs.
Proof.
  assert (F : forall pending, flat_map (fun g => all_leaves (group_spec g)) (match pending with [] => [] | _ :: _ => [(None : option N, None : option N, pending)] end) = all_leaves pending)
    by (intros [|x p]; [reflexivity|]; cbn; now rewrite app_nil_r).
  induction specs as [|s r IH]; intro pending.
  - cbn [split_go]. rewrite F. cbn. now rewrite app_nil_r.
  - destruct s as [t|en cb rep l]; cbn [split_go].
    + rewrite IH, all_leaves_app, <- app_assoc. reflexivity.
    + destruct en; [|apply IH]. rewrite flat_map_app, F. cbn [flat_map group_spec]. rewrite IH. reflexivity.
Qed.
Lemma ops_inside d (l : list transform) t : In t l -> exists a b, map Do (flat_map (ops d) l) = a ++ map Do (ops d t) ++ b.
Proof.
  intro H. apply in_split in H. destruct H as (a & b & ->). exists (map Do (flat_map (ops d) a)), (map Do (flat_map (ops d) b)).
  rewrite flat_map_app. cbn [flat_map]. now rewrite !map_app.
Qed.
Lemma expected_contains d l gs t : groups (visible l) gs -> In t (all_leaves l) -> enabled t = true ->
  exists a b, expected d l gs = a ++ map Do (ops d t) ++ b.
Proof.
  intros G H E. unfold expected. destruct (staged l).
  - rewrite <- (groups_functional _ _ (split_go_groups l [] eq_refl) _ G). clear G gs.
    assert (H' : In t (flat_map (fun g => all_leaves (group_spec g)) (split_go l []))) by now rewrite split_go_leaves.
    apply in_flat_map in H'. destruct H' as (g & Hg & Ht). apply in_split in Hg. destruct Hg as (g1 & g2 & ->).
    destruct g as [[cb rep] s]. cbn [group_spec] in Ht.
    assert (Ha : In t (active s)) by now apply filter_In.
    destruct (ops_inside d _ _ Ha) as (a & b & Eab).
    rewrite stage_entries_app. cbn [stage_entries]. rewrite Eab. 
    eexists (stage_entries d 0 g1 ++ (Hook (0 + List.length g1) cb rep :: a)), _. rewrite <- !app_assoc. f_equal. cbn [app]. f_equal. rewrite <- !app_assoc. reflexivity.
  - apply ops_inside. now apply filter_In.
Qed.
Lemma split_go_last specs t : forall pending, exists gs ls, split_go (specs ++ [Leaf t]) pending = gs ++ [(None, None, ls ++ [Leaf t])].
Proof.
  induction specs as [|s r IH]; intro pending.
  - cbn [app split_go]. exists [], pending. destruct (pending ++ [Leaf t]) eqn:E; [destruct pending; discriminate|]. reflexivity.
  - destruct s as [t0|en cb rep l]; cbn [app split_go]; [apply IH|]. destruct en; [|apply IH].
    destruct (IH []) as (gs & ls & ->). eexists (_ ++ (cb, rep, l) :: gs), ls. rewrite <- app_assoc. reflexivity.
Qed.
Lemma expected_last d l gs t : groups (visible (l ++ [Leaf t])) gs -> enabled t = true ->
  exists a, expected d (l ++ [Leaf t]) gs = a ++ map Do (ops d t).
Proof.
  intros G E.
  assert (A : forall s, exists a, map Do (flat_map (ops d) (active (s ++ [Leaf t]))) = a ++ map Do (ops d t)).
  { intro s. unfold active. rewrite all_leaves_app, filter_app, flat_map_app, map_app. eexists. f_equal. cbn. rewrite E. cbn. now rewrite app_nil_r. }
  unfold expected. destruct (staged _); [|apply A].
  rewrite <- (groups_functional _ _ (split_go_groups _ [] eq_refl) _ G).
  destruct (split_go_last l t []) as (g1 & ls & ->). rewrite stage_entries_app. cbn [stage_entries]. destruct (A ls) as [a ->].
  eexists. rewrite app_nil_r, app_comm_cons, app_assoc. reflexivity.
Qed.
Lemma asked_has san d l : san = true -> (forall t, In t (all_leaves l) -> is_sanitize t = true -> enabled t = true) ->
  exists t, In t (all_leaves (asked san d l)) /\ is_sanitize t = true /\ enabled t = true.
Proof.
  intros -> H. unfold asked. destruct (existsb is_sanitize (all_leaves l)) eqn:E; cbn [andb negb].
  - apply existsb_exists in E. destruct E as (t & Ht & Es). exists t. auto.
  - exists (TSanitize (Some d) true None None). rewrite all_leaves_app, in_app_iff. cbn. auto.
Qed.

(* The walk of a sanitizer is closed at its end. *)
Definition of_sanitize (c : compiled) : bool :=
  match c with CWalk (WForeign _ _ _ | WElements _ _ _ | WStrip _ _ _ | WSanAttrs _ _ _ | WSanRel _ _ _ | WComments _ _ _ | WDoctype _ _ _) => true | _ => false end.
Fixpoint closed (l : list compiled) : Prop :=
  match l with [] => True | c :: r => (of_sanitize c = true -> match r with d :: _ => of_sanitize d = true \/ is_walk d = false | [] => False end) /\ closed r end.
Lemma closed_app a b : closed a -> closed b -> closed (a ++ b).
Proof.
  intros Ha Hb. induction a as [|c r IH]; [assumption|]. cbn [app closed] in *. destruct Ha as [H1 H2]. split; [|now apply IH].
  intro S. specialize (H1 S). destruct r; [contradiction|assumption].
Qed.
Lemma closed_one c : of_sanitize c = false -> closed [c].
Proof. intro H. cbn. split; [congruence|exact I]. Qed.
Lemma closed_sanitize default p cb rep : closed (compile_sanitize default p cb rep).
Proof.
  unfold compile_sanitize. set (q := match p with Some q => q | None => default end).
  destruct (p_strip q), (p_rel q), (p_comments q), (p_doctype q), (p_rawtext q); cbn; intuition congruence.
Qed.
Lemma append_other acc item : (of_sanitize item = true \/ is_walk item = false) -> append_compiled acc item = item :: acc.
Proof. intros [H|H]; destruct item; try discriminate; destruct acc; reflexivity. Qed.
Lemma fold_append_sanitize items acc : forallb (fun c => of_sanitize c || negb (is_walk c)) items = true -> fold_left append_compiled items acc = rev items ++ acc.
Proof.
  revert acc. induction items as [|i r IH]; intros acc H; [reflexivity|]. cbn in H. apply andb_true_iff in H. destruct H as [H1 H2]. cbn [fold_left].
  rewrite append_other by (apply orb_true_iff in H1; destruct H1 as [->|H1]; [now left|right; now destruct (is_walk i)]). rewrite IH by assumption. cbn [rev]. now rewrite <- app_assoc.
Qed.
Lemma append_closed acc item : of_sanitize item = false -> closed (rev acc) -> closed (rev (append_compiled acc item)).
Proof.
  intros Hi Hc. assert (P : closed (rev (item :: acc))) by (cbn [rev]; apply closed_app; [assumption|now apply closed_one]).
  destruct acc as [|b r]; [destruct item; exact P|].
  assert (Q : forall c, of_sanitize c = false -> of_sanitize b = false -> is_walk b = true -> closed (rev (c :: r))).
  { intros c H1 H2 H3. cbn [rev] in *. clear P. induction (rev r) as [|x y IH]; [now apply closed_one|]. cbn [app closed] in *. destruct Hc as [A B]. split; [|now apply IH].
    intro S. specialize (A S). destruct y as [|z y]; [|exact A]. cbn in *. destruct A; congruence. }
  destruct item; try exact P; destruct b; try exact P; cbn [append_compiled];
    (match goal with |- context [if ?x then _ else _] => destruct x end; [|exact P]); apply Q; reflexivity.
Qed.

Lemma of_sanitize_lower default acc t : closed (rev acc) -> closed (rev (PlanModel.lower default acc t)).
Proof.
  intro H. assert (P : forall c, of_sanitize c = false -> closed (rev (c :: acc))) by (intros c Hc; cbn [rev]; apply closed_app; [assumption|now apply closed_one]).
  destruct t; cbn [PlanModel.lower]; try (now apply P); try (now apply append_closed).
  - destruct tokens; [now apply P|assumption].
  - rewrite fold_append_sanitize.
    + rewrite rev_app_distr, rev_involutive. apply closed_app; [assumption|apply closed_sanitize].
    + unfold compile_sanitize. set (q := match p with Some q => q | None => default end).
      destruct (p_strip q), (p_rel q), (p_comments q), (p_doctype q), (p_rawtext q); reflexivity.
  - assumption.
Qed.
Lemma closed_flat default ts : closed (compile_flat default ts).
Proof.
  unfold compile_flat. assert (G : forall acc, closed (rev acc) -> closed (rev (fold_left (fun acc t => if enabled t then PlanModel.lower default acc t else acc) ts acc))).
  { induction ts as [|t r IH]; intros acc H; [assumption|]. cbn [fold_left]. apply IH. destruct (enabled t); [now apply of_sanitize_lower|assumption]. }
  apply G. exact I.
Qed.
Lemma closed_stages default gs : forall i, closed (compile_stages default i gs).
Proof.
  induction gs as [|[[cb rep] l] r IH]; intro i; [exact I|]. cbn [compile_stages]. apply closed_app; [|apply IH]. unfold compile_stage.
  apply closed_app; [destruct (i =? 0); [exact I|now apply closed_one]|]. apply closed_app; [now apply closed_one|].
  induction (flatten l) as [|t ts IHt]; [exact I|]. cbn [flat_map]. apply closed_app; [apply closed_flat|assumption].
Qed.
Lemma closed_compile default specs l : compile_transforms default specs = Some l -> closed l.
Proof.
  unfold compile_transforms. destruct specs as [|s r]; [intro H; injection H as <-; exact I|].
  destruct (existsb unknown _); [discriminate|]. destruct (split (s :: r)) as [|g gs]; intro H; injection H as <-; [apply closed_flat|apply (closed_stages default (g :: gs) 0)].
Qed.
(* What a walk of a closed list looks like. *)
Lemma closed_tail a c b : closed (a ++ c :: b) -> of_sanitize c = true -> forallb is_walk b = true -> forallb of_sanitize b = true.
Proof.
  induction a as [|x a IH]; [|intros [_ H]; auto]. cbn [app]. revert c. induction b as [|d b IHb]; intros c [H1 H2] S W; [reflexivity|].
  cbn in W. apply andb_true_iff in W. destruct W as [Wd Wb]. specialize (H1 S). destruct H1 as [H1|H1]; [|congruence]. cbn. rewrite H1. cbn. now apply (IHb d).
Qed.
Lemma closed_part a b : closed (a ++ b) -> closed b.
Proof. induction a as [|c r IH]; [auto|]. intros [_ H]. auto. Qed.
Lemma schedule_walks l w : forall pending b, forallb is_walk pending = true -> In (EWalk w) (schedule pending b l) ->
  forallb is_walk w = true /\ exists p q, pending ++ l = p ++ w ++ q.
Proof.
  induction l as [|c r IH]; intros pending b Hp H.
  - cbn [schedule] in H. destruct pending as [|x p]; [destruct H|]. destruct H as [H|[]]. injection H as <-. split; [assumption|]. exists [], []. reflexivity.
  - assert (G : forall b', In (EWalk w) (schedule [] b' r) -> forallb is_walk w = true /\ exists p q, pending ++ c :: r = p ++ w ++ q).
    { intros b' H'. apply IH in H'; [|reflexivity]. destruct H' as [H1 (p & q & H2)]. split; [assumption|]. cbn [app] in H2. exists (pending ++ c :: p), q. rewrite H2, <- app_assoc. reflexivity. }
    cbn [schedule] in H. destruct (is_walk c) eqn:Hc.
    + apply IH in H; [|rewrite forallb_app, Hp; cbn; now rewrite Hc]. rewrite <- app_assoc in H. exact H.
    + apply in_app_iff in H. destruct H as [H|H].
      * destruct pending as [|x p]; [destruct H|]. destruct H as [H|[]]. injection H as <-. split; [assumption|]. exists [], (c :: r). reflexivity.
      * destruct c; try discriminate; cbn in H; try (destruct H as [H|H]; [discriminate|]); eauto.
        destruct b; [eauto|]. destruct H as [H|H]; [discriminate|eauto].
Qed.

(* Limits. *)
Lemma last_now d l : forall now, last_sanitize d l now = match List.find (fun t => enabled t && is_sanitize t) (rev l) with
  | Some (TSanitize p _ _ _) => Some (own_or d p) | _ => now end.
Proof.
  induction l as [|t r IH]; intro now; [reflexivity|]. 
  assert (F : forall g (a : list transform) x, List.find g (a ++ [x]) = match List.find g a with Some y => Some y | None => if g x then Some x else None end).
  { intros g a x. induction a as [|y a IHa]; cbn; [reflexivity|]. destruct (g y); [reflexivity|exact IHa]. }
  cbn [rev]. rewrite F.
  destruct (List.find _ (rev r)) as [y|] eqn:E.
  - pose proof (find_some _ _ E) as [_ K]. apply andb_true_iff in K. destruct K as [_ K]. destruct y; try discriminate.
    destruct t as [| | | | | | | |p' en' cb' rep'| |]; cbn [last_sanitize]; try (rewrite IH; reflexivity). destruct en'; rewrite IH; reflexivity.
  - destruct t as [| | | | | | | |p en cb rep| |]; cbn; rewrite ?andb_false_r; try (rewrite IH; reflexivity).
    destruct en; rewrite IH; reflexivity.
Qed.

Definition ml1 (now : N) (c : compiled) : N := match c with CLimits n => n | CHarden p => p_limits p | _ => now end.
Definition ml (now : N) (l : list compiled) : N := fold_left ml1 l now.
Lemma match_limits_ml dl l : match_limits dl l = ml dl l.
Proof.
  unfold match_limits, ml. rewrite <- (rev_involutive l) at 2. rewrite fold_left_rev_right with (f := fun c n => ml1 n c) || idtac.
  induction (rev l) as [|c r IH]; [reflexivity|]. cbn [match_limits_go rev]. rewrite fold_left_app. cbn [fold_left]. rewrite <- IH. destruct c; reflexivity.
Qed.
Lemma ml_app n a b : ml n (a ++ b) = ml (ml n a) b.
Proof. apply fold_left_app. Qed.
Lemma ml_append n acc item : ml n (rev (append_compiled acc item)) = ml1 (ml n (rev acc)) item.
Proof.
  assert (P : ml n (rev (item :: acc)) = ml1 (ml n (rev acc)) item) by (cbn [rev]; rewrite ml_app; reflexivity).
  destruct acc as [|b r]; [destruct item; exact P|].
  destruct item; try exact P; destruct b; try exact P; cbn [append_compiled];
    (match goal with |- context [if ?x then _ else _] => destruct x end; [|exact P]);
    cbn [rev]; rewrite !ml_app; reflexivity.
Qed.
Lemma ml_fold n items acc : ml n (rev (fold_left append_compiled items acc)) = ml (ml n (rev acc)) items.
Proof. revert acc. induction items as [|i r IH]; intro acc; [reflexivity|]. cbn [fold_left]. rewrite IH, ml_append. reflexivity. Qed.
Lemma ml_sanitize n default p cb rep : ml n (compile_sanitize default p cb rep) = p_limits (own_or default p).
Proof.
  unfold compile_sanitize. change (match p with Some q => q | None => default end) with (own_or default p). set (q := own_or default p).
  destruct (p_strip q), (p_rel q), (p_comments q), (p_doctype q), (p_rawtext q); reflexivity.
Qed.
Definition hardens (t : transform) : bool := match t with THarden _ _ => true | _ => false end.
Definition lim (dl : N) (o : option policy) : N := match o with Some p => p_limits p | None => dl end.
Lemma ml_flat default dl ts : forall o acc, existsb hardens ts = false -> ml dl (rev acc) = lim dl o ->
  ml dl (rev (fold_left (fun acc t => if PlanModel.enabled t then PlanModel.lower default acc t else acc) ts acc)) = lim dl (last_sanitize default ts o).
Proof.
  induction ts as [|t r IH]; intros o acc Hh Ha; [exact Ha|]. cbn in Hh. apply orb_false_iff in Hh. destruct Hh as [H1 H2]. cbn [fold_left].
  assert (C : forall c, (forall n, ml1 n c = n) -> ml dl (rev (c :: acc)) = lim dl o) by (intros c Hc; cbn [rev]; rewrite ml_app; cbn; now rewrite Hc).
  destruct t; cbn [PlanModel.enabled last_sanitize]; try (apply IH; [assumption|]; match goal with |- context [if ?e then _ else _] => destruct e; [|exact Ha] end; cbn [PlanModel.lower];
    first [now apply C | rewrite ml_append; exact Ha]).
  - apply IH; [assumption|]. destruct enabled, tokens; cbn [PlanModel.lower]; try exact Ha. now apply C.
  - destruct enabled; [|apply IH; assumption]. apply IH; [assumption|]. cbn [PlanModel.lower]. now rewrite ml_fold, ml_sanitize.
  - apply IH; assumption.
Qed.
Lemma last_bind d d' l o : last_sanitize d' (map (bind d) l) o = last_sanitize d l o.
Proof. revert o. induction l as [|t r IH]; intro o; [reflexivity|]. destruct t as [| | | | | | | |p en cb rep|p en|]; try apply IH; destruct p, en; apply IH. Qed.
Lemma hardens_bind d l : existsb hardens (map (bind d) l) = existsb hardens l.
Proof. induction l as [|t r IH]; [reflexivity|]. cbn. rewrite IH. f_equal. destruct t; try reflexivity; destruct p; reflexivity. Qed.
Lemma last_app d a b o : last_sanitize d (a ++ b) o = last_sanitize d b (last_sanitize d a o).
Proof. revert o. induction a as [|t r IH]; intro o; [reflexivity|]. destruct t; cbn; try apply IH. destruct enabled; apply IH. Qed.
Lemma ml_none n c : (forall m, ml1 m c = m) -> ml n [c] = n.
Proof. intro H. apply H. Qed.
Lemma ml_leaves default dl ts o n : existsb hardens ts = false -> n = lim dl o ->
  ml n (flat_map (fun t => compile_flat default [t]) ts) = lim dl (last_sanitize default ts o).
Proof.
  revert o n. induction ts as [|t r IH]; intros o n Hh Hn; [exact Hn|]. cbn in Hh. apply orb_false_iff in Hh. destruct Hh as [H1 H2].
  cbn [flat_map]. rewrite ml_app. change (t :: r) with ([t] ++ r). rewrite last_app. apply IH; [assumption|].
  pose proof (ml_flat default n [t] None []) as F. cbn [existsb] in F. rewrite H1 in F. specialize (F eq_refl eq_refl).
  change (rev (fold_left _ [t] [])) with (compile_flat default [t]) in F. rewrite F.
  destruct t; try exact Hn. cbn. destruct enabled; [reflexivity|exact Hn].
Qed.
Lemma existsb_flat_map {A B} (f : B -> bool) (g : A -> list B) l : existsb f (flat_map g l) = existsb (fun x => existsb f (g x)) l.
Proof. induction l as [|x r IH]; [reflexivity|]. cbn. now rewrite existsb_app, IH. Qed.
Lemma ml_stages default dl gs : forall i o n, existsb hardens (flat_map (fun g => all_leaves (group_spec g)) gs) = false -> n = lim dl o ->
  ml n (compile_stages default i gs) = lim dl (last_sanitize default (flat_map (fun g => all_leaves (group_spec g)) gs) o).
Proof.
  induction gs as [|[[cb rep] l] r IH]; intros i o n Hh Hn; [exact Hn|]. cbn [flat_map group_spec] in *. rewrite existsb_app in Hh. apply orb_false_iff in Hh. destruct Hh as [H1 H2].
  cbn [compile_stages]. rewrite ml_app, last_app. apply IH; [assumption|]. unfold compile_stage. rewrite !ml_app.
  rewrite <- (flatten_leaves l) in *. apply ml_leaves; [assumption|]. destruct (i =? 0); exact Hn.
Qed.
Lemma compile_limits default dl specs l : existsb hardens (all_leaves specs) = false -> compile_transforms default specs = Some l ->
  match_limits dl l = lim dl (last_sanitize default (all_leaves specs) None).
Proof.
  intros Hh. rewrite match_limits_ml. unfold compile_transforms. destruct specs as [|s r]; [intro H; injection H as <-; reflexivity|]. set (specs := s :: r) in *.
  destruct (existsb unknown _); [discriminate|]. unfold split. destruct (existsb is_stage specs) eqn:St.
  - rewrite is_stage_staged in St. destruct (split_go specs []) as [|g gs] eqn:Eg; [now apply split_nonempty in Eg|]. intro H. injection H as <-.
    pose proof (split_go_leaves specs []) as L. cbn [app] in L. rewrite Eg in L. change (all_leaves []) with (@nil transform) in L. cbn [app] in L. rewrite <- L in Hh |- *.
    now apply (ml_stages default dl (g :: gs) 0 None).
  - intro H. injection H as <-. unfold compile_flat. rewrite flatten_leaves. now apply ml_flat.
Qed.
Lemma asked_hardens san d l : existsb hardens (all_leaves (asked san d l)) = existsb hardens (all_leaves l).
Proof. unfold asked. destruct (san && _); [|reflexivity]. rewrite all_leaves_app, existsb_app. cbn. now rewrite orb_false_r. Qed.
