(* C67: start tags other than table, in a table *)
From Coq Require Import List Arith Bool String Lia.
From Verif Require Import Str StrFacts.
From Verif Require Import AaaModel GuardModel CloseModel CloseSpec CloseProofs1 CloseProofs2 CloseProofs3 CloseProofs4 CloseProofs5 CloseProofs6 CloseProofs7 TableModel TableSpec TableProofs1 TableProofs2 TableProofs3 TableProofs4 TableProofs5 TableProofs6.
Import ListNotations.
Open Scope string_scope. Open Scope list_scope. Open Scope nat_scope.

Lemma code_nine : forall o n sc c s l g f, orders o -> all_content c -> plains c -> In s segments -> one_of nine n = true ->
  (grouped s = true -> c = [] /\ n = u "col" /\ g = true) -> (one_of ["td"; "th"] n = true -> row_of s <> None -> cellish s = false -> existsb point c = false) -> (n = u "colgroup" -> g = true) ->
  exists g', structured o n sc (St (c ++ s ++ l) g f) = (St (fst (expected n s l)) g' (marked n (marks_after s f)), snd (expected n s l)) /\ (one_of ["col"; "colgroup"] n = true -> g' = true).
Proof.
  intros o n sc c s l g f O C P I N G K Cg.
  assert (one_of ["caption"; "tbody"; "thead"; "tfoot"; "colgroup"] n = true -> exists g', structured o n sc (St (c ++ s ++ l) g f) = (St (fst (expected n s l)) g' (marked n (marks_after s f)), snd (expected n s l)) /\ (one_of ["col"; "colgroup"] n = true -> g' = true)) as A.
  { intros M. exists g. split; [apply code_table_like; try assumption|].
    - destruct (grouped s); [|reflexivity]. destruct (G eq_refl) as (_ & -> & _). vm_compute in M. discriminate M.
    - intros X. apply Cg. names M; try (vm_compute in X; discriminate X); reflexivity. }
  names N; try (apply A; reflexivity).
  - exists (if grouped s then g else true). split; [apply code_col; try assumption; intros X; exact (proj1 (G X))|]. intros _. destruct (grouped s); [|reflexivity]. exact (proj2 (proj2 (G eq_refl))).
  - exists g. split; [apply code_cell; try assumption; [reflexivity|exact (K eq_refl)]|]. discriminate.
  - exists g. split; [apply code_cell; try assumption; [reflexivity|exact (K eq_refl)]|]. discriminate.
  - exists g. split; [apply code_tr; assumption|]. discriminate.
Qed.
Lemma seg_pos : forall c s k, plains c -> In s segments -> last_pos (named (u "table")) (c ++ s ++ k) = S (List.length k).
Proof. intros c s k P I. rewrite skip_last by (assumption || concrete). apply pos_table. exact I. Qed.
Lemma single_seg : forall q s p c s0 k, tinv q s p -> sst s = c ++ s0 ++ k -> single_p k.
Proof. intros q s p c s0 k I E. pose proof (t_single _ _ _ I) as S. rewrite E in S. apply single_suffix in S. apply single_suffix in S. exact S. Qed.
Lemma marked_same : forall n s f, (cellish s = true \/ captioned s = false) -> marked n (std_marks s f) = marked n (marks_after s f).
Proof. intros n s f H. unfold std_marks, marks_after. destruct (cellish s); [cbn [orb]; rewrite clear_same; reflexivity|]. destruct H as [H|H]; [discriminate|]. rewrite H. reflexivity. Qed.
Lemma captioned_mode : forall s k, In s segments -> captioned s = true -> reset (s ++ k) = InCaption.
Proof. intros s k I H. segs I; try (vm_compute in H; discriminate H); reflexivity. Qed.
Lemma state_eta : forall s, State (md s) (sst s) (sfm s) = s. Proof. intros []. reflexivity. Qed.
Lemma follows_seg : forall q o n sc s p c s0 k, orders o -> tinv q s p -> one_of nine n = true -> by_html_rules n (sst s) = true -> ok_tag (StartTag n sc) s = true ->
  sst s = c ++ s0 ++ k -> all_content c -> In s0 segments -> (grouped s0 = true -> c = []) -> under q k -> follows q o (Tag (StartTag n sc)) s p.
Proof.
  intros q o n sc s p c s0 k O I N R K E C I0 G U. destruct (ok_start_parts n sc s K ltac:(rewrite R; reflexivity)) as (K1 & _ & K3 & _ & K5).
  pose proof (single_seg _ _ _ _ _ _ I E) as Sk. assert (clean (c ++ s0 ++ k) = true) as Kc by (rewrite <- E; exact K1). pose proof (clean_plains c _ C Kc) as P. clear Kc.
  assert (md s = reset (s0 ++ k)) as Md by (rewrite (t_mode _ _ _ I), E; apply skip_reset; exact C).
  assert (html_text n (c ++ s0 ++ k) = true) as Ht by (rewrite <- E, <- (ten_rules n _ (nine_ten n N)); exact R).
  destruct p as [pk g pf]. pose proof (t_same _ _ _ I) as Sm. cbn [sk] in Sm. rewrite E in Sm. subst pk.
  destruct (expected_seg n s0 k I0 N) as (s1 & I1 & E1 & G1).
  assert (exists p', code_event q o (Tag (StartTag n sc)) (St (c ++ s0 ++ k) g pf) = (p', snd (expected n s0 k)) /\ sk p' = fst (expected n s0 k) /\ fm p' = marked n (marks_after s0 pf) /\ (one_of ["col"; "colgroup"] n = true -> colg p' = true)) as (p' & Pc & Ps & Pf & Pg).
  { cbn [code_event]. destruct (grouped s0) eqn:Gs.
    - specialize (G eq_refl). subst c. assert (s0 = [nd "colgroup"; nd "table"]) as -> by (segs I0; try (vm_compute in Gs; discriminate Gs); reflexivity). cbn [app] in *.
      assert (g = true) as -> by (pose proof (t_group _ _ _ I) as T; rewrite E in T; apply T; reflexivity).
      destruct (str_dec n (u "col")) as [->|Nc].
      + rewrite start_nine by (reflexivity || assumption). change (group_step (u "col") (St (nd "colgroup" :: nd "table" :: k) true pf)) with (St (nd "colgroup" :: nd "table" :: k) true pf).
        destruct (code_nine o (u "col") sc [] [nd "colgroup"; nd "table"] k true pf O no_content no_plain ltac:(in_segs) eq_refl ltac:(auto) ltac:(discriminate) ltac:(auto)) as (g' & X & Y).
        cbn [app] in X. rewrite X. eexists. split; [reflexivity|]. cbn [sk fm colg]. auto.
      + assert (exists g1, group_step n (St (nd "colgroup" :: nd "table" :: k) true pf) = St (nd "table" :: k) g1 pf /\ (n = u "colgroup" -> g1 = true)) as (g1 & Gq & Gt).
        { unfold group_step. cbn [sk colg fm]. change (foreign_current (nd "colgroup" :: nd "table" :: k)) with false. cbv iota. destruct (str_eqb n (u "colgroup")) eqn:Q; [eexists; split; [reflexivity|auto]|].
          assert (str_eqb n (u "col") = false) as -> by (destruct (str_eqb n (u "col")) eqn:Q'; [apply str_eqb_eq in Q'; congruence|reflexivity]). eexists. split; [reflexivity|]. intros ->. discriminate Q. }
        rewrite start_nine; rewrite ?Gq; cbn [sk]; [|exact N|reflexivity|unfold hack; cbn [last_pos nd node named en]; change (str_eqb (u "table") (u "table")) with true; cbv iota; rewrite andb_false_r; reflexivity].
        destruct (code_nine o n sc [] [nd "table"] k g1 pf O no_content no_plain ltac:(in_segs) N ltac:(discriminate) ltac:(intros _ X; exfalso; apply X; reflexivity) Gt) as (g' & X & Y).
        cbn [app] in X. rewrite X. eexists. split; [f_equal|]; cbn [sk fm colg].
        * names N; try reflexivity. exfalso. apply Nc. reflexivity.
        * split; [|split; [reflexivity|exact Y]]. names N; reflexivity.
    - assert (current_in [u "colgroup"] (c ++ s0 ++ k) = false) as Cc.
      { destruct c as [|e c]; [|apply current_plain; [exact P|discriminate|concrete]]. cbn [app]. segs I0; try (vm_compute in Gs; discriminate Gs); reflexivity. }
      destruct (group_step_plain n (c ++ s0 ++ k) g pf Cc) as [g1 Gq].
      assert (n = u "colgroup" -> g1 = true) as Gt.
      { intros ->. unfold group_step in Gq. cbn [sk colg fm] in Gq. rewrite <- E in Gq. rewrite (K5 eq_refl) in Gq. injection Gq as _ <-. reflexivity. }
      rewrite start_nine; rewrite ?Gq; cbn [sk]; [|exact N|exact Ht|unfold hack; rewrite seg_pos by assumption; change (S (List.length k) =? 0) with false; rewrite andb_false_r; reflexivity].
      assert (one_of ["td"; "th"] n = true -> row_of s0 <> None -> cellish s0 = false -> existsb point c = false) as Kp.
      { intros T Ro Ce. apply (reaches_point_content c (s0 ++ k) C). rewrite <- E. apply K3; [exact T|]. rewrite Md. pose proof (reset_seg [] s0 k no_content I0) as Wr; cbn [app] in Wr; rewrite Wr. apply row_mode; assumption. }
      destruct (code_nine o n sc c s0 k g1 pf O C P I0 N ltac:(rewrite Gs; discriminate) Kp Gt) as (g' & X & Y).
      rewrite X. eexists. split; [reflexivity|]. cbn [sk fm colg]. auto. }
  exists (State (reset (s1 ++ k)) (s1 ++ k) (marked n (std_marks s0 (sfm s)))), p', (snd (expected n s0 k)). split; [|split; [exact Pc|split]].
  - unfold std_event, std_tag. rewrite R. rewrite <- (state_eta s). rewrite Md, E. rewrite std_start_seg by assumption. unfold result. rewrite E1. reflexivity.
  - destruct p' as [pk' g' pf']. cbn [sk fm colg] in *. rewrite Ps, E1. apply tinv_seg; try assumption. rewrite G1. exact Pg.
  - cbn [sfm fm]. rewrite Pf. intros Fe M. rewrite Fe. apply marked_same. destruct (cellish s0) eqn:Ce; [left; reflexivity|right]. destruct (captioned s0) eqn:Cp; [|reflexivity]. exfalso.
    unfold ok_marks in M. rewrite Md, (captioned_mode s0 k I0 Cp), R in M. cbn [negb orb] in M. rewrite orb_false_r in M. names N; vm_compute in M; discriminate M.
Qed.
Theorem follows_nine : forall q o n sc s p, orders o -> tinv q s p -> one_of nine n = true -> ok_tag (StartTag n sc) s = true -> follows q o (Tag (StartTag n sc)) s p.
Proof.
  intros q o n sc s p O I N K. destruct (by_html_rules n (sst s)) eqn:R; [|apply follows_foreign; assumption].
  destruct (t_shape _ _ _ I) as [(c & E & C)|(c & s0 & k & E & C & I0 & G & U)]; [eapply follows_no_table; eassumption|eapply follows_seg; eassumption].
Qed.
