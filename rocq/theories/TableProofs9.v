(* C67: the start tag table, both cases *)
From Coq Require Import List Arith Bool String Lia.
From Verif Require Import Str StrFacts.
From Verif Require Import AaaModel GuardModel CloseModel CloseSpec CloseProofs1 CloseProofs2 CloseProofs3 CloseProofs4 CloseProofs5 CloseProofs6 CloseProofs7 TableModel TableSpec TableProofs1 TableProofs2 TableProofs3 TableProofs4 TableProofs5 TableProofs6 TableProofs7 TableProofs8.
Import ListNotations.
Open Scope string_scope. Open Scope list_scope. Open Scope nat_scope.

Lemma in_body_table : forall q sc l f m, holds_tables m -> by_mode q (StartTag (u "table") sc) (State m l f) =
  Done (State InTable (nd "table" :: (if q then l else close_p l)) f) [(nd "table", if q then l else close_p l)].
Proof. intros q sc l f m [->|[->| ->]]; reflexivity. Qed.
Lemma std_table_tag : forall q sc s, sst s <> [] -> std_tag q (StartTag (u "table") sc) s = html_rules q (StartTag (u "table") sc) (State (md s) (leave_foreign (sst s)) (sfm s)).
Proof.
  intros q sc s N. unfold std_tag. destruct (by_html_rules (u "table") (sst s)) eqn:R; [|reflexivity]. rewrite (ten_rules (u "table") (sst s) eq_refl) in R. rewrite leave_sound by (exact (ht_sound _ _ R N)). rewrite state_eta. reflexivity.
Qed.
Lemma table_insert : forall q o sc s p c b, tinv q s p -> sst s = c ++ b -> all_content c -> base q b -> (grouped b = true -> c = []) -> grouped b = false -> holds_tables (md s) ->
  find_p (named (u "p")) pbound b = None -> find_p (is "p") (ends_scope ["button"]) b = None -> sound_top b = true -> current_in [u "colgroup"] (sst s) = false ->
  (forall x c', c = x ++ c' -> table_cut (c' ++ b) = c' ++ b) -> follows q o (Tag (StartTag (u "table") sc)) s p.
Proof.
  intros q o sc s p c b I E C B _ G H Pc Pb Sb Cur Cut. pose proof (t_placed _ _ _ I) as W. pose proof (t_single _ _ _ I) as Sg. destruct (shaped_known q _ (t_shape _ _ _ I)) as [Kn Bt]. pose proof (well_placed_chained _ W) as Ch.
  destruct p as [pk g pf]. pose proof (t_same _ _ _ I) as Sm. cbn [sk] in Sm. subst pk. destruct (group_step_plain (u "table") (sst s) g pf Cur) as [g1 Gq].
  rewrite E in *. set (l' := leave_foreign (c ++ b)) in *. set (l2 := if q then l' else close_p l').
  assert (exists y c1, c = y ++ c1 /\ l' = c1 ++ b) as (y1 & c1 & E1 & L1) by (apply leave_content; exact Sb).
  assert (all_content c1) as C1 by (rewrite E1 in C; exact (suffix_content _ _ C)).
  assert (sound_top l' = true) as S' by (apply leave_sound_top; exact Bt). assert (bottom l') as B' by (apply bottom_leave; exact Bt).
  assert (suffix l' (c ++ b)) as Sf by (apply leave_suffix).
  assert (chained l') as Ch' by (exact (chained_suffix _ _ Sf Ch)).
  assert (well_placed l' /\ single_p l') as [W' Sg'] by (destruct Sf as [a Sf]; rewrite Sf in W, Sg; split; [exact (well_placed_suffix _ _ W)|exact (single_suffix _ _ Sg)]).
  assert (exists y c2, c1 = y ++ c2 /\ l2 = c2 ++ b) as (y2 & c2 & E2 & L2).
  { unfold l2. destruct q; [exists [], c1; auto|]. rewrite close_p_cut, L1. apply cut_content. exact Pb. }
  assert (all_content c2) as C2 by (rewrite E2 in C1; exact (suffix_content _ _ C1)).
  assert (sound_top l2 = true) as S2 by (unfold l2; destruct q; [exact S'|apply sound_close_p; assumption]).
  assert (well_placed l2 /\ single_p l2) as [W2 Sg2] by (rewrite L2; rewrite L1 in W', Sg'; rewrite E2 in W', Sg'; rewrite <- app_assoc in W', Sg'; split; [exact (well_placed_suffix _ _ W')|exact (single_suffix _ _ Sg')]).
  assert (md s = reset l2) as Md by (rewrite (t_mode _ _ _ I), E, L2, !skip_reset by assumption; reflexivity).
  assert (under q l2) as Un.
  { exists c2, b. split; [exact L2|]. split; [exact C2|]. split; [exact B|]. split; [rewrite <- Md; exact H|]. split; [|split; [|exact W2]].
    - intros ->. apply after_single. exact Sg'.
    - intros _. destruct l2 as [|e t]; [discriminate S2|exact S2]. }
  assert (leave_foreign (if q then c ++ b else pclose (c ++ b)) = l2 /\ bottom (if q then c ++ b else pclose (c ++ b)) /\ table_cut (if q then c ++ b else pclose (c ++ b)) = if q then c ++ b else pclose (c ++ b)) as (L & Bp & Tc).
  { unfold l2. destruct q; [split; [reflexivity|split; [exact Bt|exact (Cut [] c eq_refl)]]|]. split; [apply pclose_leave; assumption|]. split.
    - rewrite pclose_cut. apply bottom_cut; [exact Bt|reflexivity|reflexivity].
    - rewrite pclose_cut. destruct (cut_content (named (u "p")) pbound c b Pc) as (y & c3 & E3 & ->). exact (Cut y c3 E3). }
  exists (State (reset ([nd "table"] ++ l2)) ([nd "table"] ++ l2) (sfm s)), (St ([nd "table"] ++ l2) g1 pf), [(nd "table", l2)]. split; [|split; [|split]].
  - unfold std_event. rewrite std_table_tag by (rewrite E; apply bottom_ne; exact Bt). rewrite E. fold l'. unfold html_rules. apply process_done. rewrite in_body_table by exact H. reflexivity.
  - unfold code_event. rewrite table_unfold, Gq. cbv zeta. cbn [sk]. rewrite Tc. unfold with_sk. cbn [sk colg fm]. rewrite put_table_top by exact Bp. rewrite L. reflexivity.
  - apply tinv_seg; [in_segs|exact Un|exact Sg2|discriminate].
  - cbn [sfm fm]. auto.
Qed.
(* the table is cut *)
Lemma std_closes : forall q sc c s k f, all_content c -> In s segments -> (grouped s = true -> c = []) -> holds_tables (reset k) -> (q = false -> in_scope (is "p") ["button"] k = false) ->
  cellish s = false -> captioned s = false -> html_rules q (StartTag (u "table") sc) (State (reset (s ++ k)) (c ++ s ++ k) f) = Some (State InTable (nd "table" :: k) f, [(nd "table", k)]).
Proof.
  intros q sc c s k f C I G H P Ce Ca. unfold html_rules.
  assert (forall n, process (S n) q (StartTag (u "table") sc) (State (reset k) k f) = Some (State InTable (nd "table" :: k) f, [(nd "table", k)])) as Last.
  { intros n. apply process_done. rewrite in_body_table by exact H. destruct q; [reflexivity|]. rewrite (close_p_none k (P eq_refl)). reflexivity. }
  assert (forall n m l, (m = InTable \/ m = InTableBody \/ m = InRow) -> in_table_scope (is "table") l = true -> pop_until (is "table") l = k -> process (S (S n)) q (StartTag (u "table") sc) (State m l f) = Some (State InTable (nd "table" :: k) f, [(nd "table", k)])) as Table.
  { intros n m l M T E. rewrite (process_again _ _ _ _ (State (reset k) k f) []); [rewrite Last; reflexivity|]. destruct M as [->|[->| ->]]; unfold by_mode; cbn [md]; unfold in_row, in_table_body, in_table;
    change (one_of ["table"] (u "table")) with true; cbn [one_of sst sfm]; rewrite T, E; reflexivity. }
  segs I; try discriminate Ce; try (vm_compute in Ca; discriminate Ca);
  try (apply Table; [cbn; tauto|skips; reflexivity|skips; reflexivity]).
  rewrite (G eq_refl) in *. cbn [app]. change (reset (nd "colgroup" :: nd "table" :: k)) with InColgroup. rewrite (process_again _ _ _ _ (State InTable (nd "table" :: k) f) []) by reflexivity. rewrite (Table 5 InTable) by (auto || reflexivity). reflexivity.
Qed.
Lemma not_open : forall n c s k, all_content c -> plains c -> In s segments -> cellish s = false -> captioned s = false -> one_of ["td"; "th"; "caption"] n = true -> find_before n bound_table (c ++ s ++ k) = None.
Proof.
  intros n c s k C P I Ce Ca N. rewrite skip_before by (try assumption; names N; reflexivity). destruct (existsb point c); [reflexivity|]. segs I; try discriminate Ce; try (vm_compute in Ca; discriminate Ca); names N; reflexivity.
Qed.
Lemma code_closes : forall q c s k, all_content c -> plains c -> In s segments -> cellish s = false -> captioned s = false -> table_cut (if q : bool then c ++ s ++ k else pclose (c ++ s ++ k)) = k.
Proof.
  intros q c s k C P I Ce Ca.
  assert (exists c', all_content c' /\ plains c' /\ (if q then c ++ s ++ k else pclose (c ++ s ++ k)) = c' ++ s ++ k) as (c' & C' & P' & ->).
  { destruct q; [exists c; auto|]. rewrite pclose_cut. destruct (cut_content (named (u "p")) pbound c (s ++ k)) as (x & c' & -> & E).
    - apply seg_p; [exact I|intros n X; exact (proj1 (ten_not_p n X))|reflexivity].
    - exists c'. split; [exact (suffix_content _ _ C)|]. split; [exact (plains_suffix _ _ P)|exact E]. }
  unfold table_cut. cbv zeta. rewrite seg_pos by assumption. rewrite !not_open by (assumption || reflexivity). change (negb (S (List.length k) =? 0) && true && true && true) with true. cbv iota.
  replace (S (List.length k) - 1) with (List.length k) by lia. rewrite app_assoc. apply keep_app.
Qed.
Lemma seg_found : forall s k, In s segments -> (cellish s = true \/ captioned s = true) -> find_before (u "td") bound_table (s ++ k) <> None \/ find_before (u "th") bound_table (s ++ k) <> None \/ find_before (u "caption") bound_table (s ++ k) <> None.
Proof.
  intros s k I H. segs I; try (destruct H as [H|H]; vm_compute in H; discriminate H);
  first [ left; cbn [find_before]; change (named (u "td") (nd "td")) with true; cbv iota; discriminate
        | right; left; cbn [find_before]; change (named (u "th") (nd "th")) with true; cbv iota; discriminate
        | right; right; cbn [find_before]; change (named (u "caption") (nd "caption")) with true; cbv iota; discriminate ].
Qed.
Lemma cut_cell : forall c s k, all_content c -> plains c -> In s segments -> (cellish s = true \/ captioned s = true) -> existsb point c = false -> table_cut (c ++ s ++ k) = c ++ s ++ k.
Proof.
  intros c s k C P I H Q. unfold table_cut. cbv zeta. rewrite !(skip_before c C P) by concrete. rewrite Q.
  generalize (negb (last_pos (named (u "table")) (c ++ s ++ k) =? 0)). intros b.
  destruct (seg_found s k I H) as [X|[X|X]]; destruct (find_before (u "td") bound_table (s ++ k)), (find_before (u "th") bound_table (s ++ k)), (find_before (u "caption") bound_table (s ++ k)); try congruence; rewrite ?andb_false_r; reflexivity.
Qed.
Lemma found_or_not : forall s, In s segments -> (cellish s = true \/ captioned s = true) \/ (cellish s = false /\ captioned s = false).
Proof. intros s I. destruct (cellish s); [left; left; reflexivity|]. destruct (captioned s); [left; right; reflexivity|right; auto]. Qed.
Lemma holds_seg : forall s k, In s segments -> (cellish s = true \/ captioned s = true) -> holds_tables (reset (s ++ k)) /\ grouped s = false /\ sound_top (s ++ k) = true.
Proof. intros s k I H. segs I; try (destruct H as [H|H]; vm_compute in H; discriminate H); (split; [unfold holds_tables; vm_compute; auto|split; reflexivity]). Qed.
Lemma reaches_cell_seg : forall c s k, all_content c -> In s segments -> (cellish s = true \/ captioned s = true) -> reaches cell_or_caption (is "table") (c ++ s ++ k) = true.
Proof.
  intros c s k C I H. rewrite skip_reaches.
  - segs I; try (destruct H as [H|H]; vm_compute in H; discriminate H); reflexivity.
  - eapply Forall_impl; [|exact C]. intros e Ce. split; [apply content_not; [exact Ce|concrete]|apply content_is; [exact Ce|concrete]].
Qed.
Lemma has_seg : forall c s k, all_content c -> In s segments -> has_table (c ++ s ++ k) = true.
Proof. intros c s k C I. rewrite skip_has by exact C. segs I; reflexivity. Qed.
Lemma code_colgroup_cut : forall q k, table_cut (if q : bool then nd "table" :: k else pclose (nd "table" :: k)) = k.
Proof. intros q k. exact (code_closes q [] [nd "table"] k no_content no_plain ltac:(in_segs) eq_refl eq_refl). Qed.
Theorem follows_table : forall q o sc s p, tinv q s p -> ok_tag (StartTag (u "table") sc) s = true -> follows q o (Tag (StartTag (u "table") sc)) s p.
Proof.
  intros q o sc s p I K. destruct (ok_start_parts (u "table") sc s K ltac:(change (breaks_out (u "table")) with true; apply orb_true_r)) as (K1 & K2 & _).
  destruct (t_shape _ _ _ I) as [(c & E & C)|(c & s0 & k & E & C & I0 & G & U)].
  - assert (plains c) as P by (rewrite E in K1; exact (clean_plains c _ C K1)).
    apply (table_insert q o sc s p c body_open); try assumption; try reflexivity; [constructor|discriminate| | |].
    + rewrite (t_mode _ _ _ I), E, (reset_body c C). left. reflexivity.
    + rewrite E. apply (plain_current [u "colgroup"] _ (plains_end c P)). concrete.
    + intros x c' ->. unfold table_cut. cbv zeta. rewrite none_last by (first [concrete | apply plains_end; exact (plains_suffix _ _ P)]). reflexivity.
  - assert (plains c) as P by (rewrite E in K1; exact (clean_plains c _ C K1)).
    destruct (found_or_not s0 I0) as [H|[Ce Ca]].
    + destruct (holds_seg s0 k I0 H) as (Hm & Gs & Ss). assert (existsb point c = false) as Q.
      { apply (reaches_point_content c (s0 ++ k) C). rewrite <- E. apply (K2 eq_refl); rewrite E; [apply has_seg; assumption|apply reaches_cell_seg; assumption]. }
      apply (table_insert q o sc s p c (s0 ++ k)); try assumption.
      * apply base_under; assumption.
      * rewrite seg_grouped by exact I0. exact G.
      * rewrite seg_grouped by exact I0. exact Gs.
      * rewrite (t_mode _ _ _ I), E, skip_reset by exact C. exact Hm.
      * apply seg_p; [exact I0|intros n X; exact (proj1 (ten_not_p n X))|reflexivity].
      * apply seg_p; [exact I0|intros n X; exact (proj2 (ten_not_p n X))|reflexivity].
      * rewrite E. destruct c as [|e c]; [|apply current_plain; [exact P|discriminate|concrete]]. cbn [app]. segs I0; try (vm_compute in Gs; discriminate Gs); reflexivity.
      * intros x c' Ec. rewrite Ec in *. apply cut_cell; try assumption; [exact (suffix_content _ _ C)|exact (plains_suffix _ _ P)|]. rewrite existsb_app in Q. apply orb_false_iff in Q. tauto.
    + pose proof (single_seg _ _ _ _ _ _ I E) as Sk. pose proof (t_placed _ _ _ I) as W. rewrite E in W. pose proof (under_cut q c s0 k C I0 U W) as Wk.
      destruct (shaped_known q _ (under_shaped q k U)) as [_ Bk]. assert (sound_top k = true) as Sd. { destruct Wk as [Wk _]. destruct k as [|e t]; [destruct (bottom_ne _ Bk eq_refl)|]. exact (Wk eq_refl). }
      destruct p as [pk g pf]. pose proof (t_same _ _ _ I) as Sm. cbn [sk] in Sm. rewrite E in Sm. subst pk.
      assert (exists g1, code_event q o (Tag (StartTag (u "table") sc)) (St (c ++ s0 ++ k) g pf) = (St (nd "table" :: k) g1 pf, [(nd "table", k)])) as [g1 Pc].
      { cbn [code_event]. rewrite table_unfold. cbv zeta. destruct (grouped s0) eqn:Gs.
        - specialize (G eq_refl). subst c. assert (s0 = [nd "colgroup"; nd "table"]) as -> by (segs I0; try (vm_compute in Gs; discriminate Gs); reflexivity). cbn [app] in *.
          assert (g = true) as -> by (pose proof (t_group _ _ _ I) as T; rewrite E in T; apply T; reflexivity). exists false.
          change (group_step (u "table") (St (nd "colgroup" :: nd "table" :: k) true pf)) with (St (nd "table" :: k) false pf). cbn [sk]. rewrite code_colgroup_cut. apply put_table_sound. exact Sd.
        - assert (current_in [u "colgroup"] (c ++ s0 ++ k) = false) as Cc.
          { destruct c as [|e c]; [|apply current_plain; [exact P|discriminate|concrete]]. cbn [app]. segs I0; try (vm_compute in Gs; discriminate Gs); reflexivity. }
          destruct (group_step_plain (u "table") (c ++ s0 ++ k) g pf Cc) as [g1 Gq]. exists g1. rewrite Gq. cbn [sk]. rewrite code_closes by assumption. apply put_table_sound. exact Sd. }
      assert (exists y c1, c = y ++ c1 /\ leave_foreign (c ++ s0 ++ k) = c1 ++ s0 ++ k) as (y & c1 & E1 & L1) by (apply leave_content; segs I0; reflexivity).
      exists (State (reset ([nd "table"] ++ k)) ([nd "table"] ++ k) (sfm s)), (St ([nd "table"] ++ k) g1 pf), [(nd "table", k)]. split; [|split; [exact Pc|split]].
      * unfold std_event. rewrite std_table_tag by (rewrite E; intros X; apply app_eq_nil in X as [_ X]; apply app_eq_nil in X as [X _]; subst s0; segs I0; discriminate).
        rewrite (t_mode _ _ _ I), E, L1, skip_reset by exact C. apply std_closes; try assumption.
        -- rewrite E1 in C. exact (suffix_content _ _ C).
        -- intros X. rewrite (G X) in E1. symmetry in E1. apply app_eq_nil in E1 as [_ E1]. exact E1.
        -- destruct U as (? & ? & _ & _ & _ & X & _). exact X.
        -- destruct U as (? & ? & _ & _ & _ & _ & X & _). exact X.
      * apply tinv_seg; [in_segs|exact U|exact Sk|discriminate].
      * cbn [sfm fm]. auto.
Qed.
