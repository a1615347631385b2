(* comments, continued: the find loop against the lookahead *)
From Coq Require Import Lia ZifyBool ZifyN ZifyNat.
From Verif Require Import Str StrFacts HtmlCharRefSpec HtmlTokSpec TokFacts ScanModel ScanComProofs.
Open Scope N_scope.

Definition plain (p : str) : bool := forallb (fun c => negb (c =? 10) && negb (c =? 13)) p.
Lemma newlines_head_cr t : exists r, newlines (13 :: t) = 10 :: r.
Proof. eexists. reflexivity. Qed.
Lemma starts_newlines p : forall s, plain p = true -> starts p (newlines s) = starts p s.
Proof.
  unfold plain. induction p as [|x p IH]; intros s H; [destruct s; reflexivity|]. cbn [forallb] in H. apply andb_true_iff in H as [Hx Hp]. destruct s as [|c t]; [reflexivity|]. destruct (N.eqb_spec c 13) as [->|Nc].
  - destruct (newlines_head_cr t) as [r ->]. cbn [starts]. replace (x =? 10) with false by lia. replace (x =? 13) with false by lia. reflexivity.
  - rewrite newlines_cons_other by exact Nc. cbn [starts]. rewrite IH by exact Hp. reflexivity.
Qed.
Lemma eqb_newlines p : forall s, plain p = true -> str_eqb (newlines s) p = str_eqb s p.
Proof.
  unfold plain. induction p as [|x p IH]; intros s H.
  - destruct s as [|c t]; [reflexivity|]. destruct (N.eqb_spec c 13) as [->|Nc]; [destruct (newlines_head_cr t) as [r ->]; reflexivity|]. rewrite newlines_cons_other by exact Nc. reflexivity.
  - cbn [forallb] in H. apply andb_true_iff in H as [Hx Hp]. destruct s as [|c t]; [reflexivity|]. destruct (N.eqb_spec c 13) as [->|Nc].
    + destruct (newlines_head_cr t) as [r ->]. rewrite !str_eqb_cons. replace (10 =? x) with false by lia. replace (13 =? x) with false by lia. reflexivity.
    + rewrite newlines_cons_other by exact Nc. rewrite !str_eqb_cons, IH by exact Hp. reflexivity.
Qed.
Lemma skip_newlines p s : plain p = true -> starts p s = true -> skipn (List.length p) (newlines s) = newlines (skipn (List.length p) s).
Proof.
  intros H E. apply starts_spec in E as [t ->]. rewrite newlines_app_no_cr.
  - rewrite !skipn_app, !skipn_all, Nat.sub_diag. reflexivity.
  - intros I. unfold plain in H. rewrite forallb_forall in H. specialize (H _ I). discriminate H.
Qed.

Fixpoint lk (s : str) : str * option str :=
  match s with
  | [] => ([], None)
  | c :: t =>
    if starts [45; 45; 62] s then ([], Some (skipn 3 s))
    else if starts [45; 45; 33; 62] s then ([], Some (skipn 4 s))
    else if str_eqb s [45] || str_eqb s [45; 45] || str_eqb s [45; 45; 33] then ([], None)
    else (c :: fst (lk t), snd (lk t))
  end.
Lemma lk_cons c t : lk (c :: t) = if starts [45; 45; 62] (c :: t) then ([], Some (skipn 3 (c :: t))) else if starts [45; 45; 33; 62] (c :: t) then ([], Some (skipn 4 (c :: t)))
  else if str_eqb (c :: t) [45] || str_eqb (c :: t) [45; 45] || str_eqb (c :: t) [45; 45; 33] then ([], None) else (c :: fst (lk t), snd (lk t)).
Proof. reflexivity. Qed.
Lemma lk_other c t : c <> 45 -> lk (c :: t) = (c :: fst (lk t), snd (lk t)).
Proof. intros H. rewrite lk_cons. cbn [starts]. rewrite !str_eqb_cons. replace (45 =? c) with false by lia. replace (c =? 45) with false by lia. reflexivity. Qed.
Lemma lk_1 c t : c <> 45 -> lk (45 :: c :: t) = (45 :: fst (lk (c :: t)), snd (lk (c :: t))).
Proof. intros H. rewrite lk_cons. cbn [starts]. rewrite !str_eqb_cons, !str_eqb_nc. replace (45 =? c) with false by lia. replace (c =? 45) with false by lia. reflexivity. Qed.
Lemma lk_2 c t : c <> 62 -> c <> 33 -> lk (45 :: 45 :: c :: t) = (45 :: fst (lk (45 :: c :: t)), snd (lk (45 :: c :: t))).
Proof. intros H1 H2. rewrite lk_cons. cbn [starts]. rewrite !str_eqb_cons, !str_eqb_nc. replace (62 =? c) with false by lia. replace (33 =? c) with false by lia. replace (c =? 33) with false by lia. reflexivity. Qed.
Lemma lk_3 c t : c <> 62 -> lk (45 :: 45 :: 33 :: c :: t) = (45 :: 45 :: 33 :: fst (lk (c :: t)), snd (lk (c :: t))).
Proof.
  intros H. rewrite lk_cons. cbn [starts]. rewrite !str_eqb_cons, !str_eqb_nc. replace (62 =? c) with false by lia. cbn [N.eqb Pos.eqb andb orb].
  rewrite lk_1 by discriminate. rewrite lk_other by discriminate. reflexivity.
Qed.
Lemma lk_head s : forall c, starts [c] (fst (lk s)) = true -> starts [c] s = true.
Proof. intros c H. destruct s as [|x t]; [exact H|]. rewrite lk_cons in H. repeat match type of H with context [if ?b then _ else _] => destruct b; try discriminate H end. exact H. Qed.
Lemma look_lk n : forall s d, (List.length s <= n)%nat -> look d (newlines s) = ((d ++ map nul (newlines (fst (lk s))))%list, option_map newlines (snd (lk s))).
Proof.
  induction n as [|n IH]; intros s d L; [destruct s; [cbn; rewrite app_nil_r; reflexivity|cbn in L; lia]|]. destruct s as [|c t]; [cbn; rewrite app_nil_r; reflexivity|]. cbn [List.length] in L.
  destruct (N.eqb_spec c 13) as [->|Nc].
  - rewrite lk_other by discriminate. cbn [fst snd]. destruct (starts [10] t) eqn:E.
    + apply starts_spec in E as [t' ->]. cbn [app]. cbn [app List.length] in L. rewrite newlines_crlf, look_other by discriminate. rewrite lk_other by discriminate. cbn [fst snd]. rewrite newlines_crlf. rewrite IH by lia. cbn [map]. rewrite <- app_assoc. reflexivity.
    + rewrite newlines_cr by exact E. rewrite look_other by discriminate. rewrite newlines_cr by (destruct (starts [10] (fst (lk t))) eqn:K; [rewrite (lk_head _ _ K) in E; discriminate E|reflexivity]). rewrite IH by lia. cbn [map]. rewrite <- app_assoc. reflexivity.
  - rewrite newlines_cons_other by exact Nc. rewrite look_cons, lk_cons. rewrite <- (newlines_cons_other c t Nc). rewrite !starts_newlines, !eqb_newlines by reflexivity.
    destruct (starts [45; 45; 62] (c :: t)) eqn:E1; [cbn [fst snd option_map]; change (map nul (newlines [])) with (@nil N); rewrite app_nil_r; pose proof (skip_newlines [45; 45; 62] (c :: t) eq_refl E1) as K; cbn [List.length] in K; rewrite K; reflexivity|].
    destruct (starts [45; 45; 33; 62] (c :: t)) eqn:E2; [cbn [fst snd option_map]; change (map nul (newlines [])) with (@nil N); rewrite app_nil_r; pose proof (skip_newlines [45; 45; 33; 62] (c :: t) eq_refl E2) as K; cbn [List.length] in K; rewrite K; reflexivity|].
    destruct (str_eqb (c :: t) [45] || str_eqb (c :: t) [45; 45] || str_eqb (c :: t) [45; 45; 33]); [cbn; rewrite app_nil_r; reflexivity|]. cbn [fst snd]. rewrite IH by lia. rewrite newlines_cons_other by exact Nc. cbn [map]. rewrite <- app_assoc. reflexivity.
Qed.

(* ---------- the find loop ---------- *)
(* the runs of dashes before !> on which the loop goes wrong: a maximal run of 3, 5, 7, ... dashes *)
Definition no_odd_bang (s : str) : Prop := forall a k b, s = (a ++ repeat 45 (3 + 2 * k) ++ 33 :: 62 :: b)%list -> ends [45] a = true.
Lemma ends_cons x a : a <> [] -> ends [45] (x :: a) = ends [45] a.
Proof. intros Na. unfold ends. cbn [rev app]. destruct (rev a) as [|z r] eqn:E; [destruct Na; rewrite <- (rev_involutive a), E; reflexivity|]. reflexivity. Qed.
Lemma nob_cons c t : no_odd_bang (c :: t) -> c <> 45 -> no_odd_bang t.
Proof.
  intros H Nc a k b E. specialize (H (c :: a) k b). cbn [app] in H. rewrite <- E in H. specialize (H eq_refl). destruct a as [|y a]; [unfold ends in H; cbn [rev app starts] in H; lia|]. rewrite <- H. symmetry. apply ends_cons. discriminate.
Qed.
Lemma nob_pair t : no_odd_bang (45 :: 45 :: t) -> no_odd_bang t.
Proof.
  intros H a k b E. destruct a as [|y a].
  - specialize (H [] (S k) b). rewrite E in H. cbn [app] in H. replace (3 + 2 * S k)%nat with (S (S (3 + 2 * k))) in H by lia. cbn [repeat app] in H. exact (H eq_refl).
  - specialize (H (45 :: 45 :: y :: a) k b). rewrite E in H. specialize (H eq_refl). rewrite !ends_cons in H by discriminate. exact H.
Qed.
(* what the loop returns, as data and rest *)
Definition cut (s : str) (k : nat) : str * str := let e := if str_eqb (slice s (k + 1) (k + 3)) [33; 62] then (k - 1)%nat else k in (firstn e s, skipn (k + 3) s).
Lemma cut_shift c s k : ((k > 0)%nat \/ str_eqb (slice s (k + 1) (k + 3)) [33; 62] = false) -> cut (c :: s) (S k) = (c :: fst (cut s k), snd (cut s k)).
Proof.
  intros H. unfold cut. cbn [Nat.add skipn]. assert (E : slice (c :: s) (S (k + 1)) (S (k + 3)) = slice s (k + 1) (k + 3)) by (unfold slice; cbn [skipn Nat.sub]; reflexivity). rewrite E. destruct (str_eqb (slice s (k + 1) (k + 3)) [33; 62]) eqn:Q.
  - destruct H as [H|H]; [|discriminate H]. replace (S k - 1)%nat with (S (k - 1)) by lia. reflexivity.
  - reflexivity.
Qed.
Lemma find_1 a b t : (a =? 45) && (b =? 45) = false -> find_comment_end (a :: b :: t) = option_map S (find_comment_end (b :: t)).
Proof. intros H. cbn [find_comment_end]. rewrite H. reflexivity. Qed.
Lemma find_2 t : find_comment_end (45 :: 45 :: t) = if starts [62] t then Some O else if starts [33; 62] t then Some 1%nat else if starts [45; 62] t then Some 1%nat else option_map (fun k => S (S k)) (find_comment_end t).
Proof. reflexivity. Qed.
Lemma fce_pos s k : find_comment_end s = Some k -> (k > 0)%nat \/ str_eqb (slice s (k + 1) (k + 3)) [33; 62] = false.
Proof.
  intros H. destruct k; [|left; lia]. right. destruct s as [|a [|b t]]; [discriminate H|discriminate H|]. destruct ((a =? 45) && (b =? 45)) eqn:E; [|rewrite find_1 in H by exact E; destruct (find_comment_end (b :: t)); discriminate H].
  apply andb_true_iff in E as [Ea Eb]. apply N.eqb_eq in Ea, Eb. subst a b. rewrite find_2 in H.
  destruct (starts [62] t) eqn:S1; [|destruct (starts [33; 62] t); [discriminate H|]; destruct (starts [45; 62] t); [discriminate H|]; destruct (find_comment_end t); discriminate H].
  apply starts_spec in S1 as [r ->]. cbn [Nat.add]. unfold slice. reflexivity.
Qed.
Lemma find_lk n : forall s, (List.length s <= n)%nat -> no_odd_bang s ->
  match find_comment_end s with Some k => lk s = (fst (cut s k), Some (snd (cut s k))) | None => snd (lk s) = None end.
Proof.
  induction n as [|n IH]; intros s L H; [destruct s; [reflexivity|cbn in L; lia]|].
  destruct s as [|a [|b t]]; [reflexivity| |].
  { cbn [find_comment_end]. destruct (N.eqb_spec a 45) as [->|Na]; [reflexivity|]. rewrite lk_other by exact Na. reflexivity. }
  assert (Step : forall x r, True -> (List.length r <= n)%nat -> no_odd_bang r -> lk (x :: r) = (x :: fst (lk r), snd (lk r)) -> match option_map S (find_comment_end r) with Some k => lk (x :: r) = (fst (cut (x :: r) k), Some (snd (cut (x :: r) k))) | None => snd (lk (x :: r)) = None end).
  { intros x r _ Lr Hr E. specialize (IH r Lr Hr). rewrite E. destruct (find_comment_end r) as [k|] eqn:F; cbn [option_map].
    - rewrite (cut_shift x r k (fce_pos r k F)). rewrite IH. reflexivity.
    - exact IH. }
  cbn [List.length] in L. destruct (N.eqb_spec a 45) as [->|Na].
  - destruct (N.eqb_spec b 45) as [->|Nb].
    + rewrite find_2. destruct (starts [62] t) eqn:S1; [apply starts_spec in S1 as [r ->]; reflexivity|].
      destruct (starts [33; 62] t) eqn:S2; [apply starts_spec in S2 as [r ->]; reflexivity|].
      destruct (starts [45; 62] t) eqn:S3; [apply starts_spec in S3 as [r ->]; reflexivity|].
      assert (Ht : no_odd_bang t) by (apply nob_pair; exact H).
      destruct t as [|c t]; [reflexivity|].
      assert (E : (lk (45 :: 45 :: c :: t) = (45 :: 45 :: fst (lk (c :: t)), snd (lk (c :: t)))) \/ (find_comment_end (c :: t) = None /\ snd (lk (45 :: 45 :: c :: t)) = None)).
      { destruct (N.eqb_spec c 33) as [->|N33].
        - destruct t as [|e t]; [right; split; reflexivity|left]. cbn [starts] in S2. rewrite lk_3 by lia. rewrite (lk_other 33) by discriminate. reflexivity.
        - assert (N62 : c <> 62) by (intros ->; destruct t; discriminate S1). rewrite lk_2 by assumption. destruct (N.eqb_spec c 45) as [->|N45].
          + destruct t as [|e t]; [right; split; reflexivity|]. assert (Ne : e <> 62) by (intros ->; destruct t; discriminate S3). destruct (N.eqb_spec e 33) as [->|Ne3].
            * destruct t as [|f t]; [right; split; reflexivity|]. destruct (N.eqb_spec f 62) as [->|Nf].
              -- specialize (H [] O t eq_refl). discriminate H.
              -- left. rewrite lk_3 by exact Nf. rewrite (lk_1 33) by discriminate. rewrite (lk_other 33) by discriminate. reflexivity.
            * left. rewrite (lk_2 e) by assumption. reflexivity.
          + left. rewrite lk_1 by exact N45. reflexivity. }
      cbn [List.length] in L. specialize (IH (c :: t) ltac:(cbn [List.length]; lia) Ht). destruct E as [E|[E1 E2]].
      * rewrite E. destruct (find_comment_end (c :: t)) as [k|] eqn:F; cbn [option_map]; [|exact IH]. pose proof (fce_pos _ _ F) as P. rewrite cut_shift by (left; lia). rewrite (cut_shift 45 (c :: t) k P). rewrite IH. reflexivity.
      * rewrite E1. exact E2.
    + rewrite find_1 by lia. apply Step; [exact Logic.I|cbn [List.length]; lia| |apply lk_1; exact Nb].
      intros x k r E. destruct x as [|y x]; [cbn [repeat app Nat.add] in E; injection E as E _; congruence|]. specialize (H (45 :: y :: x) k r). cbn [app] in H. cbn [app] in E. rewrite E in H. specialize (H eq_refl). rewrite ends_cons in H by discriminate. exact H.
  - rewrite find_1 by lia. apply Step; [exact Logic.I|cbn [List.length]; lia|apply (nob_cons a); assumption|apply lk_other; exact Na].
Qed.
(* at the end of the input *)
Lemma remove_dash_cons c t : t <> [] -> remove_dash (c :: t) = c :: remove_dash t.
Proof. intros H. unfold remove_dash. rewrite ends_cons by exact H. destruct (ends [45] t); [|reflexivity]. destruct t; [congruence|reflexivity]. Qed.
Lemma ends_later p c t : ends p (c :: t) = false -> ends p t = false.
Proof.
  intros H. destruct (ends p t) eqn:E; [|reflexivity]. unfold ends in *. apply starts_spec in E as [r E]. cbn [rev] in H. rewrite E, <- app_assoc in H. rewrite (proj2 (starts_spec _ _)) in H; [discriminate H|]. eexists. reflexivity.
Qed.
Lemma lk_open s : ends (u "--!") s = false -> snd (lk s) = None -> fst (lk s) = remove_dash (remove_dash s).
Proof.
  induction s as [|c t IH]; intros H N0; [reflexivity|]. pose proof (ends_later _ _ _ H) as Ht. rewrite lk_cons in *. destruct (starts [45; 45; 62] (c :: t)); [discriminate N0|]. destruct (starts [45; 45; 33; 62] (c :: t)); [discriminate N0|].
  destruct (str_eqb (c :: t) [45]) eqn:E1; [apply str_eqb_eq in E1; rewrite E1; reflexivity|]. destruct (str_eqb (c :: t) [45; 45]) eqn:E2; [apply str_eqb_eq in E2; rewrite E2; reflexivity|]. destruct (str_eqb (c :: t) [45; 45; 33]) eqn:E3; [apply str_eqb_eq in E3; rewrite E3 in H; discriminate H|].
  cbn [orb fst snd] in *. rewrite IH by assumption. destruct t as [|b t].
  - assert (Nc : c <> 45) by (intros ->; discriminate E1). assert (R : remove_dash [c] = [c]) by (unfold remove_dash, ends; cbn [rev app starts]; replace (45 =? c) with false by lia; reflexivity). rewrite !R. reflexivity.
  - rewrite (remove_dash_cons c (b :: t)) by discriminate. destruct (remove_dash (b :: t)) as [|x r] eqn:R.
    + assert (b = 45 /\ t = []) as [-> ->].
      { unfold remove_dash in R. destruct (ends [45] (b :: t)) eqn:E; [|discriminate R]. destruct t; [|discriminate R]. unfold ends in E; cbn [rev app starts] in E. split; [lia|reflexivity]. }
      assert (Nc : c <> 45) by (intros ->; discriminate E2). unfold remove_dash, ends. cbn [rev app starts removelast]. replace (45 =? c) with false by lia. reflexivity.
    + rewrite (remove_dash_cons c (x :: r)) by discriminate. reflexivity.
Qed.
Lemma comment_ok sc last s : starts [33; 62] s = false -> no_odd_bang s -> ends (u "--!") s = false ->
  run sc O last CommentStart (newlines s) = match comment s with (d, Some r) => TComment d :: run sc O last Data (newlines r) | (d, None) => [TComment d] end.
Proof.
  intros H1 H2 H3. rewrite start_run. rewrite !starts_newlines by reflexivity. unfold comment. rewrite find_2, H1.
  destruct (starts [62] s) eqn:E1.
  { pose proof (skip_newlines [62] s eq_refl E1) as K. cbn [List.length] in K. rewrite K. apply starts_spec in E1 as [r ->]. reflexivity. }
  destruct (starts [45; 62] s) eqn:E2.
  { pose proof (skip_newlines [45; 62] s eq_refl E2) as K. cbn [List.length] in K. rewrite K. apply starts_spec in E2 as [r ->]. reflexivity. }
  rewrite (look_lk (List.length s)) by lia. pose proof (find_lk (List.length s) s (le_n _) H2) as F. destruct (find_comment_end s) as [k|] eqn:Ef; cbn [option_map].
  - pose proof (fce_pos _ _ Ef) as P.
    assert (E : slice (45 :: 45 :: s) (S (S k) + 1) (S (S k) + 3) = slice s (k + 1) (k + 3)) by (unfold slice; cbn [skipn Nat.sub Nat.add]; reflexivity). rewrite E. rewrite F. unfold cut. cbn [fst snd app option_map after]. rewrite !comment_data_eq. cbn [Nat.add skipn].
    destruct (str_eqb (slice s (k + 1) (k + 3)) [33; 62]); [destruct P as [P|P]; [|discriminate P]|].
    + replace (S (S k) - 1 - 2)%nat with (k - 1)%nat by lia. reflexivity.
    + replace (S (S k) - 2)%nat with k by lia. reflexivity.
  - rewrite F. rewrite (lk_open s H3 F). cbn [fst snd app option_map after]. rewrite comment_data_eq. reflexivity.
Qed.
