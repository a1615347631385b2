(* C67: end tags *)
From Coq Require Import List Arith Bool String Lia.
From Verif Require Import Str StrFacts.
From Verif Require Import AaaModel GuardModel CloseModel CloseSpec CloseProofs1 CloseProofs2 CloseProofs3 CloseProofs4 CloseProofs5 CloseProofs6 CloseProofs7 TableModel TableSpec TableProofs1 TableProofs2 TableProofs3 TableProofs4 TableProofs5 TableProofs6 TableProofs7 TableProofs8 TableProofs9 TableProofs10 TableProofs11.
Import ListNotations.
Open Scope string_scope. Open Scope list_scope. Open Scope nat_scope.

Definition findable (n : str) (c s k : stack) : Prop := existsb picked (c ++ s ++ k) = false \/ below n s <> None \/ existsb (named n) (c ++ s ++ k) = false.
Definition cell_marks (n : str) (c s : stack) (f : list mark) : list mark :=
  if one_of ["table"] n then marks_after s f
  else if one_of ["tr"; "tbody"; "thead"; "tfoot"] n then match below n s with Some _ => if existsb point c then f else marks_after s f | None => f end
  else f.
Lemma seg_before : forall n s k, In s segments -> one_of ["tr"; "tbody"; "thead"; "tfoot"] n = true -> find_before n bound_table (s ++ k) = match below n s with Some x => Some (x ++ k) | None => None end.
Proof.
  intros n s k I N. unfold one_of, in_strs in N. cbn [map existsb] in N. rewrite !orb_true_iff in N.
  repeat match type of N with _ \/ _ => destruct N as [N|N] end; try discriminate N; apply str_eqb_eq in N; subst n; segs I; reflexivity.
Qed.
Lemma cell_seg : forall n c s k g f, tidy c -> all_content c -> In s segments -> one_of ten n = true -> one_of ["colgroup"] n = false -> grouped s = false -> findable n c s k ->
  exists g' c' s', end_cell n (St (c ++ s ++ k) g f) = St (c' ++ s' ++ k) g' (cell_marks n c s f) /\ tidy c' /\ all_content c' /\ In s' segments /\ grouped s' = false /\ below n s' = below n s /\ findable n c' s' k
    /\ (c' ++ s' = c ++ s \/ below n s <> None).
Proof.
  intros n c s k g f T C I N Nc G D. pose proof (tidy_plains c T) as P.
  assert (forall g0, one_of ["table"; "tr"; "tbody"; "thead"; "tfoot"] n = true -> below n s <> None -> exists g' c' s', close_cell (St (c ++ s ++ k) g0 f) = St (c' ++ s' ++ k) g' (marks_after s f) /\ tidy c' /\ all_content c' /\ In s' segments /\ grouped s' = false /\ below n s' = below n s /\ findable n c' s' k
    /\ (c' ++ s' = c ++ s \/ below n s <> None)) as Close.
  { intros g0 M B. rewrite cell_closed by assumption. exists g0. destruct (cellish s) eqn:E.
    - exists [], (tl s). cbn [app]. split; [reflexivity|]. split; [constructor|]. split; [constructor|].
      assert (below n (tl s) = below n s) as X.
      { segs I; try discriminate E; cbn [tl below]; unfold one_of, in_strs in M; cbn [map existsb] in M; rewrite !orb_true_iff in M; repeat match type of M with _ \/ _ => destruct M as [M|M] end; try discriminate M; apply str_eqb_eq in M; subst n; reflexivity. }
      split; [segs I; try discriminate E; in_segs|]. split; [segs I; try discriminate E; reflexivity|]. split; [exact X|]. split; [right; left; rewrite X; exact B|right; exact B].
    - exists c, s. split; [reflexivity|]. split; [exact T|]. split; [exact C|]. split; [exact I|]. split; [exact G|]. split; [reflexivity|]. split; [exact D|left; reflexivity]. }
  unfold end_cell, cell_marks. unfold with_colg. cbn [sk fm].
  destruct (one_of ["table"] n) eqn:Tb.
  - assert (n = u "table") as ->. { unfold one_of, in_strs in Tb. cbn [map existsb] in Tb. rewrite orb_false_r in Tb. apply str_eqb_eq. exact Tb. }
    change (str_eqb (u "table") (u "table")) with true. cbv iota. apply Close; [reflexivity|]. segs I; discriminate.
  - assert (str_eqb n (u "table") = false) as -> by (unfold one_of, in_strs in Tb; cbn [map existsb] in Tb; rewrite orb_false_r in Tb; exact Tb).
    assert (str_eqb n (u "tr") || in_strs n section_names = one_of ["tr"; "tbody"; "thead"; "tfoot"] n) as -> by (unfold one_of, in_strs, section_names; cbn [map existsb]; reflexivity).
    destruct (one_of ["tr"; "tbody"; "thead"; "tfoot"] n) eqn:R.
    + assert (in_strs n tens = true) as Nt by exact N. rewrite (skip_before c C P n (s ++ k) Nt). rewrite (seg_before n s k I R).
      destruct (below n s) as [x|] eqn:B.
      * destruct (existsb point c).
        -- exists g, c, s. rewrite B. split; [reflexivity|]. split; [exact T|]. split; [exact C|]. split; [exact I|]. split; [exact G|]. split; [reflexivity|]. split; [exact D|left; reflexivity].
        -- apply Close; [|congruence]. unfold one_of, in_strs in *. cbn [map existsb] in *. rewrite R. apply orb_true_r.
      * assert ((if existsb point c then None else None) = @None stack) as -> by (destruct (existsb point c); reflexivity).
        exists g, c, s. rewrite B. split; [reflexivity|]. split; [exact T|]. split; [exact C|]. split; [exact I|]. split; [exact G|]. split; [reflexivity|]. split; [exact D|left; reflexivity].
    + exists g, c, s. split; [reflexivity|]. split; [exact T|]. split; [exact C|]. split; [exact I|]. split; [exact G|]. split; [reflexivity|]. split; [exact D|left; reflexivity].
Qed.
Lemma code_end_seg : forall n c s k g f, tidy c -> all_content c -> In s segments -> one_of ten n = true -> one_of ["colgroup"] n = false -> grouped s = false -> findable n c s k ->
  exists g', end_rest n (end_cell n (St (c ++ s ++ k) g f)) = match below n s with Some x => St (x ++ k) g' (unmarks n (cell_marks n c s f)) | None => St (c ++ s ++ k) g' f end.
Proof.
  intros n c s k g f T C I N Nc G D. destruct (cell_seg n c s k g f T C I N Nc G D) as (g' & c' & s' & E & T' & C' & I' & G' & B & D' & X). exists g'. rewrite E. rewrite rest_seg by assumption. rewrite B.
  destruct (below n s) eqn:Bs; [reflexivity|]. destruct X as [X|X]; [|congruence]. rewrite !app_assoc, X. f_equal. unfold cell_marks. rewrite Bs.
  destruct (one_of ["table"] n) eqn:Tb; [|destruct (one_of ["tr"; "tbody"; "thead"; "tfoot"] n); reflexivity]. exfalso.
  unfold one_of, in_strs in Tb. cbn [map existsb] in Tb. rewrite orb_false_r in Tb. apply str_eqb_eq in Tb. subst n. segs I; vm_compute in Bs; discriminate Bs.
Qed.
Lemma code_end : forall n c s k g f, tidy c -> all_content c -> In s segments -> one_of ten n = true -> (grouped s = true -> c = [] /\ g = true /\ one_of ["col"] n = false) -> findable n c s k -> stays n (c ++ s ++ k) = Leave ->
  exists g', table_end n (St (c ++ s ++ k) g f) = match remains n s with Some x => St (x ++ k) g' (if grouped s then f else unmarks n (cell_marks n c s f)) | None => St (c ++ s ++ k) g' f end.
Proof.
  intros n c s k g f T C I N G D L. rewrite end_leave by exact L. cbn [sk colg fm]. unfold remains. destruct (grouped s) eqn:Gs.
  - destruct (G eq_refl) as (-> & -> & Gc). assert (s = [nd "colgroup"; nd "table"]) as -> by (segs I; try (vm_compute in Gs; discriminate Gs); reflexivity). cbn [app andb].
    change (current_in [u "colgroup"] (nd "colgroup" :: nd "table" :: k)) with true. cbn [andb tl].
    destruct (str_eqb n (u "colgroup")) eqn:Q; [apply str_eqb_eq in Q; subst n; eexists; reflexivity|].
    assert (one_of ["colgroup"] n = false) as Nc by (unfold one_of, in_strs; cbn [map existsb]; rewrite Q; reflexivity).
    assert (findable n [] [nd "table"] k) as D'.
    { destruct D as [D|[D|D]].
      - left. cbn [app existsb] in *. apply orb_false_iff in D as [_ D]. exact D.
      - right. left. intros X. apply D. cbn [below] in *. unfold nd, node in *. cbn [en] in *. destruct (str_eqb (u "colgroup") n) eqn:Y; [apply str_eqb_eq in Y; subst n; vm_compute in Q; discriminate Q|]. exact X.
      - right. right. cbn [app existsb] in *. apply orb_false_iff in D as [_ D]. exact D. }
    destruct (code_end_seg n [] [nd "table"] k false f T no_content ltac:(in_segs) N Nc eq_refl D') as (g' & X). exists g'. cbn [app] in X. rewrite X. clear X D D' L G.
    names N; try (vm_compute in Nc; discriminate Nc); try (vm_compute in Gc; discriminate Gc); try reflexivity.
  - cbn [andb]. assert (current_in [u "colgroup"] (c ++ s ++ k) = false) as Cc.
    { destruct c as [|e c]; [|apply current_plain; [exact (tidy_plains _ T)|discriminate|concrete]]. cbn [app]. segs I; try (vm_compute in Gs; discriminate Gs); reflexivity. }
    rewrite Cc, andb_false_r. destruct (str_eqb n (u "colgroup")) eqn:Q.
    + apply str_eqb_eq in Q. subst n. unfold pop_if. rewrite Cc. exists false. segs I; try (vm_compute in Gs; discriminate Gs); reflexivity.
    + apply code_end_seg; try assumption. unfold one_of, in_strs; cbn [map existsb]; rewrite Q; reflexivity.
Qed.
