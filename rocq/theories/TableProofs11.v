(* C67: end tags: the parser *)
From Coq Require Import List Arith Bool String Lia.
From Verif Require Import Str StrFacts.
From Verif Require Import AaaModel GuardModel CloseModel CloseSpec CloseProofs1 CloseProofs2 CloseProofs3 CloseProofs4 CloseProofs5 CloseProofs6 CloseProofs7 TableModel TableSpec TableProofs1 TableProofs2 TableProofs3 TableProofs4 TableProofs5 TableProofs6 TableProofs7 TableProofs8 TableProofs9 TableProofs10.
Import ListNotations.
Open Scope string_scope. Open Scope list_scope. Open Scope nat_scope.

Definition picked (e : el) : bool := named (u "select") e && html e.
Definition end_close (n : str) (s : st) : st :=
  let clear (s : st) := if in_strs n cell_names || in_strs n marker_names then cleared s else s in
  match sk s with
  | e :: t =>
    if matches_end n e then with_sk t (clear s)
    else match (if in_strs n scoped_end_names then find_scoped n (sk s) else find_before n default_scope (sk s)) with
         | Some below => with_sk below (clear s)
         | None => s
         end
  | [] => s
  end.
Definition end_rest (n : str) (s : st) : st :=
  let select := last_pos picked (sk s) in
  let target := last_pos (named n) (sk s) in
  let behind := negb (select =? 0) && negb (target =? 0) && (target <? select) in
  if behind && negb (in_strs n scoped_end_names) then s else end_close n (if behind then with_sk (keep (select - 1) (sk s)) s else s).
Definition end_cell (n : str) (s : st) : st :=
  if str_eqb n (u "table") then close_cell (with_colg false s)
  else if str_eqb n (u "tr") || in_strs n section_names then match find_before n bound_table (sk s) with Some _ => close_cell s | None => s end
  else s.
Lemma end_leave : forall n s, stays n (sk s) = Leave -> table_end n s =
  if str_eqb n (u "colgroup") then St (pop_if [u "colgroup"] (sk s)) false (fm s) else end_rest n (end_cell n (if colg s && current_in [u "colgroup"] (sk s) then St (tl (sk s)) false (fm s) else s)).
Proof. intros n s H. unfold table_end. rewrite H. reflexivity. Qed.

Definition tidy (c : stack) : Prop := Forall (fun e => name_in tens e = false /\ (html e = false -> in_strs (lower (en e)) tens = false)) c.
Lemma tidy_plains : forall c, tidy c -> plains c.
Proof. intros c T. eapply Forall_impl; [|exact T]. intros e E. exact (proj1 E). Qed.
Lemma tidy_suffix : forall x c, tidy (x ++ c) -> tidy c.
Proof. intros x c H. apply Forall_app in H. tauto. Qed.
Lemma tidy_ends : forall n e, one_of ten n = true -> name_in tens e = false /\ (html e = false -> in_strs (lower (en e)) tens = false) -> matches_end n e = false.
Proof.
  intros n e N [A B]. unfold matches_end. rewrite (plain_named n e A N). cbn [orb]. destruct (html e); [reflexivity|]. cbn [negb andb]. specialize (B eq_refl). destruct (str_eqb (lower (en e)) n) eqn:E; [|reflexivity].
  apply str_eqb_eq in E. rewrite E in B. unfold one_of in N. fold tens in N. congruence.
Qed.
Lemma col_before : forall c k, plains c -> find_before (u "col") default_scope k = None -> find_before (u "col") default_scope (c ++ k) = None.
Proof.
  intros c k P H. induction P as [|e c Pe P IH]; [exact H|]. cbn [find_before app]. rewrite (plain_named (u "col") e Pe) by concrete. rewrite IH. destruct (html e); [destruct (name_in default_scope e)|destruct (foreign_boundary e)]; reflexivity.
Qed.
Definition unmarks (n : str) (f : list mark) : list mark := if one_of ["td"; "th"; "caption"] n then clear_marker f else f.
Lemma close_seg : forall n c s k g f, tidy c -> all_content c -> In s segments -> one_of ten n = true -> one_of ["colgroup"] n = false -> grouped s = false ->
  end_close n (St (c ++ s ++ k) g f) = match below n s with Some x => St (x ++ k) g (unmarks n f) | None => St (c ++ s ++ k) g f end.
Proof.
  intros n c s k g f T C I N Nc G. pose proof (tidy_plains c T) as P.
  assert ((if in_strs n scoped_end_names then find_scoped n (c ++ s ++ k) else find_before n default_scope (c ++ s ++ k)) = match below n s with Some x => Some (x ++ k) | None => None end) as F.
  { names N; try (vm_compute in Nc; discriminate Nc);
    match goal with |- (if ?t then _ else _) = _ => let b := eval vm_compute in t in change t with b end; cbv iota;
    first [ rewrite skip_scoped by (assumption || concrete); segs I; try (vm_compute in G; discriminate G); reflexivity
          | rewrite col_before; [segs I; reflexivity|exact P|segs I; try (vm_compute in G; discriminate G); reflexivity] ]. }
  unfold end_close. cbn [sk]. destruct c as [|e c].
  - cbn [app] in *. destruct s as [|x s]; [exfalso; cbn [segments In] in I; intuition discriminate|]. cbn [app]. destruct (matches_end n x) eqn:M.
    + assert (str_eqb (en x) n = true) as X.
      { unfold matches_end in M. assert (html x = true) as Hx by (pose proof (seg_html _ I) as H; inversion H; assumption). rewrite Hx in M. cbn [negb andb] in M. rewrite orb_false_r in M. exact M. }
      cbn [below]. rewrite X. unfold with_sk, cleared, unmarks. names N; reflexivity.
    + cbn [app] in F. rewrite F. destruct (below n (x :: s)); [|reflexivity]. unfold with_sk, cleared, unmarks. names N; reflexivity.
  - inversion T as [|? ? Te Tc]; subst. cbn [app]. rewrite (tidy_ends n e N Te). cbn [app] in F. rewrite F. destruct (below n s); [|reflexivity]. unfold with_sk, cleared, unmarks. names N; reflexivity.
Qed.
Lemma last_pos_zero : forall p l, existsb p l = false -> last_pos p l = 0.
Proof. exact last_pos_pos. Qed.
Lemma below_target : forall n c s k, plains c -> one_of ten n = true -> In s segments -> below n s <> None -> S (List.length k) <= last_pos (named n) (c ++ s ++ k).
Proof.
  intros n c s k P N I B. rewrite skip_last by assumption. clear c P.
  assert (forall s', (exists a, s' = a ++ [nd "table"]) -> below n s' <> None -> S (List.length k) <= last_pos (named n) (s' ++ k)) as H; [|apply H; [exact (seg_ends s I)|exact B]].
  clear. intros s' [a ->] B. induction a as [|e a IH]; cbn [app below last_pos] in *.
  - unfold named. destruct (str_eqb (en (nd "table")) n); [cbn [List.length]; lia|congruence].
  - unfold named in *. destruct (str_eqb (en e) n); [cbn [List.length]; rewrite !app_length; cbn [List.length]; lia|exact (IH B)].
Qed.
Lemma rest_seg : forall n c s k g f, tidy c -> all_content c -> In s segments -> one_of ten n = true -> one_of ["colgroup"] n = false -> grouped s = false ->
  (existsb picked (c ++ s ++ k) = false \/ below n s <> None \/ existsb (named n) (c ++ s ++ k) = false) ->
  end_rest n (St (c ++ s ++ k) g f) = match below n s with Some x => St (x ++ k) g (unmarks n f) | None => St (c ++ s ++ k) g f end.
Proof.
  intros n c s k g f T C I N Nc G D. unfold end_rest. cbv zeta. cbn [sk].
  destruct D as [D|[D|D]].
  - rewrite (last_pos_zero _ _ D). cbn [Nat.eqb negb andb]. apply close_seg; assumption.
  - assert (in_strs n scoped_end_names = true) as Sc.
    { names N; try (vm_compute in Nc; discriminate Nc); try reflexivity. exfalso. apply D. segs I; reflexivity. }
    rewrite Sc. rewrite andb_false_r. match goal with |- context [if ?t then _ else _] => destruct t eqn:B end; [|apply close_seg; assumption].
    apply andb_true_iff in B as [_ B]. apply Nat.ltb_lt in B. pose proof (below_target n c s k (tidy_plains c T) N I D) as Lt.
    assert (forall n0, in_strs (u n0) tens = true -> picked (nd n0) = false) as Np by (intros n0 X; unfold picked; rewrite (select_ten n0 X); reflexivity).
    destruct (selected_content picked c s k I Np) as (x & c' & -> & E). unfold selected in E. cbv zeta in E. cbn [Nat.eqb negb andb] in E.
    replace (S (List.length k) <? last_pos picked ((x ++ c') ++ s ++ k)) with true in E by (symmetry; apply Nat.ltb_lt; lia). unfold with_sk. cbn [sk colg fm]. rewrite E.
    rewrite close_seg; try assumption; [|exact (tidy_suffix _ _ T)|exact (suffix_content _ _ C)].
    destruct (below n s); [reflexivity|congruence].
  - rewrite (last_pos_zero _ _ D). rewrite andb_false_r. cbn [Nat.eqb negb andb]. apply close_seg; assumption.
Qed.
Lemma rest_none : forall n l g f, tidy l -> one_of ten n = true -> end_rest n (St l g f) = St l g f.
Proof.
  intros n l g f T N. pose proof (tidy_plains l T) as P. unfold end_rest. cbv zeta. cbn [sk]. rewrite (none_last n l P N). cbn [Nat.eqb negb]. rewrite andb_false_r. cbn [andb]. unfold end_close. cbn [sk].
  destruct l as [|e l]; [reflexivity|]. inversion T as [|? ? Te Tl]; subst. rewrite (tidy_ends n e N Te). rewrite (none_scoped n _ P N), (none_before n default_scope _ P N). destruct (in_strs n scoped_end_names); reflexivity.
Qed.
Lemma cell_none : forall n l g f, plains l -> one_of ten n = true -> exists g', end_cell n (St l g f) = St l g' f.
Proof.
  intros n l g f P N. unfold end_cell, close_cell, with_colg. cbn [sk fm]. rewrite (none_cell l P), (none_before n bound_table l P N). destruct (str_eqb n (u "table")); [eauto|]. destruct (str_eqb n (u "tr") || in_strs n section_names); eauto.
Qed.
