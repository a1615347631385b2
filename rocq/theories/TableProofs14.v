(* C67: content; histories *)
From Coq Require Import List Arith Bool String Lia.
From Verif Require Import Str StrFacts.
From Verif Require Import AaaModel GuardModel CloseModel CloseSpec CloseProofs1 CloseProofs2 CloseProofs3 CloseProofs4 CloseProofs5 CloseProofs6 CloseProofs7 TableModel TableSpec TableProofs1 TableProofs2 TableProofs3 TableProofs4 TableProofs5 TableProofs6 TableProofs7 TableProofs8 TableProofs9 TableProofs10 TableProofs11 TableProofs12 TableProofs13.
Import ListNotations.
Open Scope string_scope. Open Scope list_scope. Open Scope nat_scope.

Lemma thinned_filter : forall l l', thinned l l' -> filter plain_el l = filter plain_el l'.
Proof.
  intros l l' T. induction T as [|e l l' T IH|e l l' F T IH]; [reflexivity| |]; cbn [filter].
  - rewrite IH. reflexivity.
  - unfold plain_el at 1. rewrite F. exact IH.
Qed.
Lemma thinned_app : forall a b x, thinned (a ++ b) x -> exists a' b', x = a' ++ b' /\ thinned a a' /\ thinned b b'.
Proof.
  induction a as [|e a IH]; intros b x T; [exists [], x; split; [reflexivity|split; [constructor|exact T]]|]. cbn [app] in T. inversion T; subst.
  - match goal with H : thinned (a ++ b) _ |- _ => destruct (IH _ _ H) as (a' & b' & -> & A & B) end. exists (e :: a'), b'. split; [reflexivity|]. split; [constructor; exact A|exact B].
  - match goal with H : thinned (a ++ b) _ |- _ => destruct (IH _ _ H) as (a' & b' & -> & A & B) end. exists a', b'. split; [reflexivity|]. split; [constructor; assumption|exact B].
Qed.
Lemma thinned_content : forall c c', all_content c -> thinned c c' -> all_content c'.
Proof.
  intros c c' C T. revert C. induction T as [|e l l' T IH|e l l' F T IH]; intros C; [exact C| |]; inversion C as [|? ? Ce Cl]; subst.
  - constructor; [exact Ce|exact (IH Cl)].
  - exact (IH Cl).
Qed.
Lemma thinned_same : forall a a', Forall (fun e => formatting e = false) a -> thinned a a' -> a' = a.
Proof.
  intros a a' F T. revert F. induction T as [|e l l' T IH|e l l' Fe T IH]; intros F; [reflexivity| |]; inversion F as [|? ? Fe' Fl]; subst; [f_equal; exact (IH Fl)|congruence].
Qed.
Lemma seg_unformatted : forall s, In s segments -> Forall (fun e => formatting e = false) s.
Proof. intros s I. segs I; repeat constructor. Qed.
Lemma thinned_base : forall q b, base q b -> forall b', thinned b b' -> well_placed b' -> base q b' /\ reset b' = reset b /\ grouped b' = grouped b.
Proof.
  intros q b B. induction B as [|s c b I C B IH H P W]; intros b' T Wp.
  - rewrite (thinned_same body_open b') by first [assumption | repeat constructor]. split; [constructor|split; reflexivity].
  - destruct (thinned_app _ _ _ T) as (s' & x & -> & Ts & T2). rewrite (thinned_same s s' (seg_unformatted s I) Ts) in *. clear s' Ts.
    pose proof (thinned_filter _ _ T2) as Fl. destruct (thinned_app _ _ _ T2) as (c' & d & -> & Tc & Td). pose proof (thinned_content c c' C Tc) as C'.
    pose proof (well_placed_suffix _ _ Wp) as W2. destruct (IH d Td (well_placed_suffix _ _ W2)) as (Bd & Rd & Gd).
    split; [|split; [|rewrite !seg_grouped by exact I; reflexivity]].
    + apply base_in; try assumption.
      * rewrite skip_reset in * by assumption. rewrite Rd. exact H.
      * intros Q. specialize (P Q). unfold in_scope in *. rewrite (reaches_plain _ _ (c ++ b) formatting_p) in P. rewrite (reaches_plain _ _ (c' ++ d) formatting_p), <- Fl. exact P.
      * destruct (seg_ends s I) as [s' ->]. rewrite <- app_assoc in Wp. exact (well_placed_suffix _ _ Wp).
    + pose proof (reset_seg [] s (c' ++ d) no_content I) as A1. pose proof (reset_seg [] s (c ++ b) no_content I) as A2. cbn [app] in A1, A2. rewrite A1, A2. reflexivity.
Qed.
Lemma based_base : forall q b, base q b -> based b = b.
Proof. intros q b B. destruct B as [|s c b I C B H P W]; [reflexivity|]. segs I; reflexivity. Qed.
Lemma group_base : forall q c b, base q b -> (grouped b = true -> c = []) -> all_content c -> grouped b = true -> reset (c ++ b) = InColgroup.
Proof.
  intros q c b B G C Gb. rewrite skip_reset by exact C. destruct B as [|s d b I D B H P W]; [discriminate Gb|]. rewrite seg_grouped in Gb by exact I. apply group_mode; assumption.
Qed.
Lemma follows_content : forall q o l f flag s p, tinv q s p -> ok_event (Content l f flag) s -> follows q o (Content l f flag) s p.
Proof.
  intros q o l f flag s p I (M & above & below & -> & A & T & W & S). destruct (shaped_base q _ (t_shape _ _ _ I)) as (c & b & E & C & B & G).
  rewrite E, skip_based, (based_base q b B) in T by exact C. destruct (thinned_base q b B below T (well_placed_suffix _ _ W)) as (B' & R & Gr).
  assert (all_content above) as Ca by (apply Forall_forall; intros e Ie; exact (proj1 (forallb_forall _ _) A e Ie)).
  assert (grouped below = false) as Gb.
  { rewrite Gr. destruct (grouped b) eqn:Gb; [|reflexivity]. exfalso. apply M. rewrite (t_mode _ _ _ I), E. apply (group_base q); auto. }
  exists (State (md s) (above ++ below) f), (St (above ++ below) flag f), []. split; [reflexivity|]. split; [reflexivity|]. split; [|cbn [sfm fm]; auto].
  assert (md s = reset (above ++ below)) as -> by (rewrite (t_mode _ _ _ I), E, !skip_reset by assumption; symmetry; exact R). apply tinv_content; try assumption; rewrite Gb; discriminate.
Qed.
Lemma follows_leave : forall q o s p, tinv q s p -> ok_event Leave_group s -> follows q o Leave_group s p.
Proof.
  intros q o s p I K. destruct p as [pk g pf]. pose proof (t_same _ _ _ I) as Sm. cbn [sk] in Sm. subst pk.
  assert ((exists s0 k, sst s = s0 ++ k /\ s0 = [nd "colgroup"; nd "table"] /\ under q k /\ g = true /\ md s = InColgroup) \/ (md s <> InColgroup /\ current_in [u "colgroup"] (sst s) = false)) as [(s0 & k & E & -> & U & -> & M)|[M Cu]].
  - destruct (t_shape _ _ _ I) as [(c & E & C)|(c & s0 & k & E & C & I0 & G & U)].
    + right. split; [rewrite (t_mode _ _ _ I), E, (reset_body c C); discriminate|]. rewrite E in *. destruct c as [|e c]; [reflexivity|]. inversion C; subst. cbn [app current_in].
      cbn [ok_event] in K. rewrite E in K. cbn [app] in K. destruct (html e) eqn:He.
      * pose proof (content_is "colgroup" e H1 ltac:(concrete)) as X. unfold is in X. rewrite He in X. cbn [andb] in X. unfold name_in. rewrite in_one. exact X.
      * cbn [orb] in K. apply negb_true_iff in K. unfold name_in. rewrite in_one. exact K.
    + destruct (grouped s0) eqn:Gs.
      * left. assert (s0 = [nd "colgroup"; nd "table"]) as -> by (segs I0; try (vm_compute in Gs; discriminate Gs); reflexivity). rewrite (G eq_refl) in E. exists [nd "colgroup"; nd "table"], k. split; [exact E|]. split; [reflexivity|]. split; [exact U|]. split.
        -- pose proof (t_group _ _ _ I) as Tg. rewrite E in Tg. exact (Tg eq_refl).
        -- rewrite (t_mode _ _ _ I), E. reflexivity.
      * right. split.
        -- rewrite (t_mode _ _ _ I), E, (reset_seg c s0 k C I0). intros X. segs I0; vm_compute in X, Gs; congruence.
        -- cbn [ok_event] in K. rewrite E in *. destruct c as [|e c]; cbn [app] in *; [segs I0; try (vm_compute in Gs; discriminate Gs); reflexivity|]. inversion C; subst. cbn [current_in]. unfold name_in. rewrite in_one. destruct (html e) eqn:He.
           ++ pose proof (content_is "colgroup" e H1 ltac:(concrete)) as X. unfold is in X. rewrite He in X. exact X.
           ++ cbn [orb] in K. apply negb_true_iff in K. exact K.
  - exists (State (reset ([nd "table"] ++ k)) ([nd "table"] ++ k) (sfm s)), (St ([nd "table"] ++ k) false pf), []. split; [|split; [|split]].
    + cbn [std_event]. rewrite M, E. reflexivity.
    + cbn [code_event]. unfold leave_colgroup. cbn [sk colg fm]. rewrite E. reflexivity.
    + pose proof (t_single _ _ _ I) as S. rewrite E in S. apply tinv_seg; [in_segs|exact U|exact (single_suffix _ _ S)|discriminate].
    + cbn [sfm fm]. auto.
  - exists s, (St (sst s) g pf), []. split; [|split; [|split]].
    + cbn [std_event]. destruct (md s); try reflexivity. congruence.
    + cbn [code_event]. unfold leave_colgroup. cbn [sk colg fm]. rewrite Cu, andb_false_r. reflexivity.
    + exact I.
    + cbn [fm]. auto.
Qed.
Lemma ten_table_nine : forall n, one_of ten n = true -> n = u "table" \/ one_of nine n = true.
Proof. intros n N. names N; [right|right|right|left|right|right|right|right|right|right]; reflexivity. Qed.
Theorem follows_event : forall q o e s p, orders o -> tinv q s p -> ok_event e s -> follows q o e s p.
Proof.
  intros q o [[n sc|n]| |l f flag] s p O I K.
  - destruct K as [N K]. cbn [tag_of] in N. destruct (ten_table_nine n N) as [->|N']; [apply follows_table; assumption|apply follows_nine; assumption].
  - destruct K as [N K]. apply follows_end; assumption.
  - apply follows_leave; assumption.
  - apply follows_content; assumption.
Qed.
Theorem follows_history : forall q o es s p, orders o -> tinv q s p -> ok_events q es s ->
  exists s' p' m, by_standard q es s = Some (s', m) /\ by_parser q o es p = (p', m) /\ tinv q s' p' /\ (sfm s = fm p -> all_marks q es s = true -> sfm s' = fm p').
Proof.
  intros q o es. induction es as [|e es IH]; intros s p O I K.
  - exists s, p, []. split; [reflexivity|]. split; [reflexivity|]. split; [exact I|]. auto.
  - destruct K as [Ke K]. destruct (follows_event q o e s p O I Ke) as (s1 & p1 & m1 & S1 & P1 & I1 & F1). rewrite S1 in K. destruct (IH s1 p1 O I1 K) as (s2 & p2 & m2 & S2 & P2 & I2 & F2).
    exists s2, p2, (m1 ++ m2). split; [cbn [by_standard]; rewrite S1, S2; reflexivity|]. split; [cbn [by_parser]; rewrite P1, P2; reflexivity|]. split; [exact I2|].
    intros Fm A. cbn [all_marks] in A. rewrite S1 in A. apply andb_true_iff in A as [A1 A2]. exact (F2 (F1 Fm A1) A2).
Qed.
Lemma tinv_begun : forall q, tinv q begun parser_begun.
Proof.
  intros q. constructor; try reflexivity.
  - left. exists []. split; [reflexivity|constructor].
  - repeat (split; [intros _; reflexivity|]). exact Logic.I.
  - repeat (split; [discriminate|]). exact Logic.I.
  - intros X. vm_compute in X. discriminate X.
Qed.
