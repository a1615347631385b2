(* C67: end tags follow the standard; content; histories *)
From Coq Require Import List Arith Bool String Lia.
From Verif Require Import Str StrFacts.
From Verif Require Import AaaModel GuardModel CloseModel CloseSpec CloseProofs1 CloseProofs2 CloseProofs3 CloseProofs4 CloseProofs5 CloseProofs6 CloseProofs7 TableModel TableSpec TableProofs1 TableProofs2 TableProofs3 TableProofs4 TableProofs5 TableProofs6 TableProofs7 TableProofs8 TableProofs9 TableProofs10 TableProofs11 TableProofs12.
Import ListNotations.
Open Scope string_scope. Open Scope list_scope. Open Scope nat_scope.

Lemma under_parts : forall q k, under q k -> exists c b, k = c ++ b /\ all_content c /\ base q b /\ grouped b = false /\ well_placed k.
Proof.
  intros q k (c & b & -> & C & B & H & _ & W). exists c, b. split; [reflexivity|]. split; [exact C|]. split; [exact B|]. split; [|exact (proj2 W)]. rewrite skip_reset in H by exact C.
  destruct B as [|s d b I D B H' P W']; [reflexivity|]. rewrite seg_grouped by exact I. destruct (grouped s) eqn:G; [|reflexivity]. exfalso. segs I; try (vm_compute in G; discriminate G). destruct H as [H|[H|H]]; vm_compute in H; discriminate H.
Qed.
Lemma remains_seg : forall n s x, In s segments -> one_of ten n = true -> remains n s = Some x -> x = [] \/ (In x segments /\ grouped x = false).
Proof.
  intros n s x I N R. names N; segs I; vm_compute in R; try discriminate R; injection R as <-; first [left; reflexivity | right; split; [in_segs|reflexivity]].
Qed.
Lemma tinv_after : forall q n s k x f g f', In s segments -> one_of ten n = true -> remains n s = Some x -> under q k -> single_p k -> tinv q (State (reset (x ++ k)) (x ++ k) f) (St (x ++ k) g f').
Proof.
  intros q n s k x f g f' I N R U S. destruct (remains_seg n s x I N R) as [->|[Ix Gx]].
  - cbn [app]. destruct (under_parts q k U) as (c & b & -> & C & B & G & W). apply tinv_content; try assumption; rewrite G; discriminate.
  - apply tinv_seg; try assumption. rewrite Gx. discriminate.
Qed.
Lemma ok_end_parts : forall n s, ok_tag (EndTag n) s = true -> (exists m, foreign_loop n (sst s) = Popped m) \/ sst s = [] \/
  (clean (sst s) = true /\ (reaches point html (sst s) = true -> reaches (element n) html (sst s) = true -> False) /\ (one_of ["col"] n = true -> md s <> InColgroup)
   /\ (existsb (is "select") (sst s) = false \/ reaches (element n) (is "table") (sst s) = true \/ existsb (fun e => str_eqb (en e) n) (sst s) = false)).
Proof.
  intros n s K. unfold ok_tag in K. apply orb_true_iff in K as [K|K].
  - destruct (sst s) as [|e t]; [auto|]. apply andb_true_iff in K as [_ K]. destruct (foreign_loop n (e :: t)) as [m|]; [eauto|discriminate].
  - right. right. apply andb_true_iff in K as [K K4]. apply andb_true_iff in K as [K K3]. apply andb_true_iff in K as [K1 K2]. split; [exact K1|]. split; [|split].
    + intros A B. rewrite A, B in K2. discriminate.
    + intros A B. rewrite A, B in K3. discriminate.
    + apply orb_true_iff in K4 as [K4|K4]; [apply orb_true_iff in K4 as [K4|K4]; [left; apply negb_true_iff; exact K4|right; left; exact K4]|right; right; apply negb_true_iff; exact K4].
Qed.
Lemma picked_is : forall l, existsb picked l = existsb (is "select") l.
Proof. induction l as [|e l IH]; [reflexivity|]. cbn [existsb]. rewrite IH. f_equal. unfold picked, is, named. apply andb_comm. Qed.
Lemma reaches_below : forall n c s k, all_content c -> In s segments -> one_of ten n = true -> reaches (element n) (is "table") (c ++ s ++ k) = true -> below n s <> None.
Proof.
  intros n c s k C I N R. rewrite skip_reaches in R.
  - assert (forall a, Forall (fun e => html e = true) a -> reaches (element n) (is "table") ((a ++ [nd "table"]) ++ k) = true -> below n (a ++ [nd "table"]) <> None) as H.
    { clear. intros a F. induction F as [|e a Fe F IH]; cbn [app reaches below].
      - unfold element, is. change (html (nd "table")) with true. change (str_eqb (en (nd "table")) (u "table")) with true. cbn [andb negb]. rewrite orb_false_r. destruct (str_eqb (en (nd "table")) n); [discriminate|discriminate].
      - unfold element at 1. rewrite Fe. cbn [andb]. destruct (str_eqb (en e) n); [discriminate|]. cbn [orb]. intros R. apply andb_true_iff in R as [_ R]. exact (IH R). }
    destruct (seg_ends s I) as [a ->]. apply H; [|exact R]. pose proof (seg_html _ I) as F. apply Forall_app in F. tauto.
  - eapply Forall_impl; [|exact C]. intros e Ce. split.
    + apply content_element; [exact Ce|]. names N; reflexivity.
    + apply content_is; [exact Ce|concrete].
Qed.
Lemma stays_leave : forall n l, Forall known l -> bottom l -> one_of ten n = true -> (forall m, foreign_loop n l <> Popped m) -> (reaches point html l = true -> reaches (element n) html l = true -> False) -> stays n l = Leave.
Proof.
  intros n [|e t] K B N L R; [reflexivity|]. destruct (html e) eqn:H; [unfold stays; rewrite H; reflexivity|]. pose proof (stays_ten n e t K B H N) as S. destruct (foreign_loop n (e :: t)) as [m|]; [exfalso; exact (L m eq_refl)|].
  destruct S as [S|[A X]]; [exact S|exfalso; exact (R A X)].
Qed.
Lemma std_end_html : forall q n s, sst s <> [] -> (forall m, foreign_loop n (sst s) <> Popped m) -> std_event q (Tag (EndTag n)) s = html_rules q (EndTag n) s.
Proof.
  intros q n s Ne L. unfold std_event, std_tag. destruct (sst s) as [|e t]; [congruence|]. destruct (html e); [reflexivity|]. destruct (foreign_loop n (e :: t)) as [m|]; [exfalso; exact (L m eq_refl)|reflexivity].
Qed.
Lemma clean_tidy : forall c b, all_content c -> clean (c ++ b) = true -> tidy c.
Proof. exact clean_plain. Qed.
Lemma tidy_body : forall c, tidy c -> tidy (c ++ body_open).
Proof. intros c T. apply Forall_app. split; [exact T|]. repeat constructor; discriminate. Qed.
Lemma end_body : forall n c, all_content c -> one_of ten n = true -> std_body_end n (c ++ body_open) = (c ++ body_open, []).
Proof.
  intros n c C N. unfold std_body_end. cbv zeta.
  assert (any_other n (c ++ body_open) = false) as A.
  { unfold any_other. induction C as [|e c Ce C IH]; [names N; reflexivity|]. cbn [app reaches]. rewrite IH, andb_false_r, orb_false_r. apply content_element; [exact Ce|]. names N; reflexivity. }
  rewrite A. repeat match goal with |- context [one_of ?L n] => assert (one_of L n = false) as -> by (refine (in_apart _ _ N _ _); concrete) end. reflexivity.
Qed.
Lemma loop_none : forall n l, (exists m, foreign_loop n l = Popped m) \/ (forall m, foreign_loop n l <> Popped m).
Proof. intros n l. destruct (foreign_loop n l) as [m|]; [left; eauto|right; discriminate]. Qed.
Lemma marks_end : forall n c s f, In s segments -> one_of ten n = true -> remains n s <> None -> grouped s = false ->
  (captioned s = true -> one_of ["table"] n = false) -> (cellish s = true -> one_of ["tr"; "tbody"; "tfoot"; "thead"] n = true -> existsb point c = false) ->
  (if cellish s || captioned s then clear_formatting f else f) = unmarks n (cell_marks n c s f).
Proof.
  intros n c s f I N R G Ca Ce. rewrite clear_same. names N; segs I; try (vm_compute in G; discriminate G); try (exfalso; apply R; reflexivity); try (specialize (Ca eq_refl); vm_compute in Ca; discriminate Ca);
    try reflexivity; unfold cell_marks; match goal with |- context [below ?a ?b] => let v := eval vm_compute in (below a b) in change (below a b) with v end;
    first [ rewrite (Ce eq_refl eq_refl); reflexivity | destruct (existsb point c); reflexivity ].
Qed.
Lemma cell_mode : forall s k, In s segments -> cellish s = true -> reset (s ++ k) = InCell.
Proof. intros s k I H. segs I; try discriminate H; reflexivity. Qed.
Lemma group_mode : forall s k, In s segments -> grouped s = true -> reset (s ++ k) = InColgroup.
Proof. intros s k I H. segs I; try (vm_compute in H; discriminate H); reflexivity. Qed.
Lemma point_cell : forall c s k, all_content c -> In s segments -> cellish s = true -> reaches point cell_or_caption (c ++ s ++ k) = existsb point c.
Proof.
  intros c s k C I E. induction C as [|e c Ce C IH].
  - cbn [app existsb]. segs I; try discriminate E; reflexivity.
  - cbn [app reaches existsb]. rewrite IH. assert (cell_or_caption e = false) as -> by (apply (content_not ["td"; "th"; "caption"] e Ce); concrete). reflexivity.
Qed.
Theorem follows_end : forall q o n s p, tinv q s p -> one_of ten n = true -> ok_tag (EndTag n) s = true -> follows q o (Tag (EndTag n)) s p.
Proof.
  intros q o n s p I N K. destruct (loop_none n (sst s)) as [[m L]|L]; [exact (follows_popped q o n s p m I N L)|].
  destruct (shaped_known q _ (t_shape _ _ _ I)) as [Kn Bt]. pose proof (bottom_ne _ Bt) as Ne.
  destruct (ok_end_parts n s K) as [[m L']|[E|(K1 & K2 & K3 & K4)]]; [exfalso; exact (L m L')|congruence|].
  pose proof (stays_leave n _ Kn Bt N L K2) as St'. pose proof (std_end_html q n s Ne L) as Std.
  destruct p as [pk g pf]. pose proof (t_same _ _ _ I) as Sm. cbn [sk] in Sm.
  destruct (t_shape _ _ _ I) as [(c & E & C)|(c & s0 & k & E & C & I0 & G & U)]; rewrite E in *; subst pk.
  - pose proof (clean_tidy c _ C K1) as T. pose proof (tidy_body c T) as Tb. pose proof (tidy_plains _ Tb) as Pb.
    assert (exists g', table_end n (St (c ++ body_open) g pf) = St (c ++ body_open) g' pf) as [g' X].
    { rewrite end_leave by exact St'. cbn [sk colg fm]. rewrite pop_if_none by (apply plain_current; [exact Pb|concrete]). destruct (str_eqb n (u "colgroup")); [eauto|].
      rewrite (plain_current [u "colgroup"] _ Pb) by concrete. rewrite andb_false_r. destruct (cell_none n _ g pf Pb N) as [g' ->]. rewrite rest_none by assumption. eauto. }
    exists s, (St (c ++ body_open) g' pf), []. split; [|split; [|split]].
    + rewrite Std. apply process_ignored. unfold by_mode. rewrite (t_mode _ _ _ I), E, (reset_body c C). unfold in_body. rewrite E, end_body by assumption. rewrite <- E. destruct s as [m l f]. reflexivity.
    + unfold code_event. rewrite X. reflexivity.
    + apply (tinv_flag q s _ g); [exact I|]. rewrite E. destruct c as [|e c]; cbn [app body_open]; [intros Y; vm_compute in Y; discriminate Y|]. inversion C; subst. rewrite content_is by (assumption || concrete). discriminate.
    + cbn [fm]. auto.
  - pose proof (clean_tidy c _ C K1) as T. pose proof (single_seg _ _ _ _ _ _ I E) as Sk.
    assert (md s = reset (s0 ++ k)) as Md by (rewrite (t_mode _ _ _ I), E; apply skip_reset; exact C).
    assert (findable n c s0 k) as D.
    { destruct K4 as [K4|[K4|K4]]; [left; rewrite picked_is; exact K4|right; left; exact (reaches_below n c s0 k C I0 N K4)|right; right; exact K4]. }
    assert (grouped s0 = true -> c = [] /\ g = true /\ one_of ["col"] n = false) as Gg.
    { intros Gs. split; [exact (G Gs)|]. split.
      - pose proof (t_group _ _ _ I) as Tg. rewrite E, (G Gs) in Tg. cbn [colg] in Tg. segs I0; try (vm_compute in Gs; discriminate Gs). apply Tg. reflexivity.
      - destruct (one_of ["col"] n) eqn:Q; [|reflexivity]. exfalso. apply (K3 eq_refl). rewrite Md. apply group_mode; assumption. }
    destruct (code_end n c s0 k g pf T C I0 N Gg D St') as [g' X].
    assert (html_rules q (EndTag n) s = match remains n s0 with Some x => Some (State (reset (x ++ k)) (x ++ k) (if cellish s0 || captioned s0 then clear_formatting (sfm s) else sfm s), []) | None => Some (s, []) end) as Y.
    { rewrite <- (state_eta s) at 1. rewrite Md, E. rewrite std_end_seg; try assumption; [|intros Gs; exact (proj2 (proj2 (Gg Gs)))]. destruct (remains n s0); [reflexivity|]. rewrite <- Md, <- E, state_eta. reflexivity. }
    destruct (remains n s0) as [x|] eqn:Rm.
    + exists (State (reset (x ++ k)) (x ++ k) (if cellish s0 || captioned s0 then clear_formatting (sfm s) else sfm s)), (St (x ++ k) g' (if grouped s0 then pf else unmarks n (cell_marks n c s0 pf))), [].
      split; [|split; [|split]].
      * rewrite Std. exact Y.
      * unfold code_event. rewrite X. reflexivity.
      * eapply tinv_after; eassumption.
      * cbn [sfm fm]. intros Fm Ok. rewrite Fm. destruct (grouped s0) eqn:Gs; [segs I0; try (vm_compute in Gs; discriminate Gs); reflexivity|].
        apply marks_end; try assumption; [congruence| |].
        -- intros Ca. unfold ok_marks in Ok. rewrite Md, (captioned_mode s0 k I0 Ca) in Ok. apply negb_true_iff. exact Ok.
        -- intros Ce R. unfold ok_marks in Ok. rewrite Md, (cell_mode s0 k I0 Ce) in Ok. rewrite R in Ok. cbn [negb orb] in Ok. rewrite E, (point_cell c s0 k C I0 Ce) in Ok. apply negb_true_iff. exact Ok.
    + exists s, (St (c ++ s0 ++ k) g' pf), []. split; [|split; [|split]].
      * rewrite Std. exact Y.
      * unfold code_event. rewrite X. reflexivity.
      * apply (tinv_flag q s _ g); [exact I|]. rewrite E. destruct (grouped s0) eqn:Gs.
        -- exfalso. unfold remains in Rm. rewrite Gs in Rm. cbn [andb] in Rm. destruct (one_of ["table"] n) eqn:Q; [|discriminate Rm]. cbn [negb] in Rm.
           unfold one_of, in_strs in Q. cbn [map existsb] in Q. rewrite orb_false_r in Q. apply str_eqb_eq in Q. subst n. segs I0; vm_compute in Rm; discriminate Rm.
        -- destruct c as [|e c]; cbn [app].
           ++ segs I0; try (vm_compute in Gs; discriminate Gs); intros Z; vm_compute in Z; discriminate Z.
           ++ inversion C; subst. rewrite content_is by (assumption || concrete). discriminate.
      * cbn [fm]. auto.
Qed.
