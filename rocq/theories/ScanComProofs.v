(* comments: the scanner against the tokenizer of the standard *)
From Coq Require Import Lia ZifyBool ZifyN ZifyNat.
From Verif Require Import Str StrFacts HtmlCharRefSpec HtmlTokSpec TokFacts ScanModel.
From Verif Require DoctypeSpec DoctypeFinal.
Open Scope N_scope.

(* ---------- line breaks ---------- *)
Lemma newlines_b s : (newlines s = DoctypeSpec.newlines false s) /\ forall c t, s = c :: t -> newlines (match s with 10 :: t => t | _ => s end) = DoctypeSpec.newlines true s.
Proof.
  remember (List.length s) as n eqn:L. assert (Hn : (List.length s <= n)%nat) by lia. clear L. revert s Hn. induction n as [|n IH]; intros s Hn; [destruct s; [split; [reflexivity|intros ? ? Q; discriminate Q]|cbn in Hn; lia]|].
  assert (A : newlines s = DoctypeSpec.newlines false s).
  { destruct s as [|c t]; [reflexivity|]. cbn [List.length] in Hn. destruct (N.eqb_spec c 13) as [->|Nc].
    - cbn [newlines DoctypeSpec.newlines]. rewrite N.eqb_refl. f_equal. destruct t as [|d t']; [reflexivity|]. rewrite <- (proj2 (IH (d :: t') ltac:(cbn [List.length] in *; lia)) d t' eq_refl).
      destruct (N.eqb_spec d 10) as [->|Nd]; [reflexivity|]. destruct d as [|p]; [reflexivity|]. do 4 (destruct p; try reflexivity).
    - rewrite newlines_cons_other by exact Nc. cbn [DoctypeSpec.newlines]. destruct (N.eqb_spec c 13); [contradiction|]. rewrite andb_false_r. f_equal. apply IH. lia. }
  split; [exact A|]. intros c t ->. destruct (N.eqb_spec c 10) as [->|Nd].
  - cbn [DoctypeSpec.newlines N.eqb Pos.eqb andb]. apply IH. cbn [List.length] in Hn. lia.
  - transitivity (newlines (c :: t)); [destruct c as [|p]; [reflexivity|]; do 4 (destruct p; try reflexivity); congruence|]. rewrite A. cbn [DoctypeSpec.newlines]. destruct (c =? 13); [reflexivity|]. destruct (N.eqb_spec c 10); [contradiction|]. reflexivity.
Qed.
Lemma newlines_same s : newlines s = DoctypeSpec.newlines false s.
Proof. apply newlines_b. Qed.
Lemma crlf_newlines s : replace_char 13 [10] (replace [13; 10] [10] s) = newlines s.
Proof. rewrite newlines_same. apply (DoctypeFinal.newlines_eq (List.length s)). lia. Qed.
Lemma nul_map s : replace_char 0 [65533] s = map nul s.
Proof. unfold replace_char. induction s as [|c s IH]; [reflexivity|]. cbn [flat_map map]. rewrite IH. unfold nul. destruct (c =? 0); reflexivity. Qed.
Lemma comment_data_eq d : comment_data d = map nul (newlines d).
Proof. unfold comment_data. rewrite crlf_newlines. apply nul_map. Qed.
Lemma newlines_crlf t : newlines (13 :: 10 :: t) = 10 :: newlines t.
Proof. reflexivity. Qed.
Lemma newlines_cr t : starts [10] t = false -> newlines (13 :: t) = 10 :: newlines t.
Proof.
  intros H. cbn [newlines]. f_equal. destruct t as [|c t]; [reflexivity|]. cbn [starts] in H. rewrite andb_true_r in H. destruct c as [|p]; [reflexivity|]. do 4 (destruct p; try reflexivity). discriminate H.
Qed.
(* the line breaks of a cut text, unless CR LF is cut in two *)
Lemma newlines_cut a : forall b, (ends [13] a = true -> starts [10] b = false) -> newlines (a ++ b) = (newlines a ++ newlines b)%list.
Proof.
  remember (List.length a) as n eqn:L. assert (Hn : (List.length a <= n)%nat) by lia. clear L. revert a Hn. induction n as [|n IH]; intros a Hn b H; [destruct a; [reflexivity|cbn in Hn; lia]|].
  destruct a as [|c a]; [reflexivity|]. cbn [List.length] in Hn. assert (T : a <> [] -> ends [13] (c :: a) = ends [13] a).
  { intros Na. unfold ends. cbn [rev app]. destruct (rev a) as [|z r] eqn:E; [destruct Na; rewrite <- (rev_involutive a), E; reflexivity|]. reflexivity. }
  destruct (N.eqb_spec c 13) as [->|Nc].
  - destruct a as [|d a].
    + cbn [app]. rewrite newlines_cr by (apply H; reflexivity). reflexivity.
    + destruct (N.eqb_spec d 10) as [->|Nd].
      * cbn [app]. rewrite !newlines_crlf. cbn [app]. f_equal. cbn [List.length] in Hn. apply IH; [lia|]. intros E. apply H. rewrite T by discriminate. destruct a as [|e a]; [discriminate E|]. revert E. unfold ends. cbn [rev app]. destruct (rev a); [tauto|]. cbn [app starts]. tauto.
      * cbn [app]. rewrite !newlines_cr by (cbn [starts]; lia). cbn [app]. f_equal. rewrite app_comm_cons. apply IH; [lia|]. intros E. apply H. rewrite T by discriminate. exact E.
  - cbn [app]. rewrite !newlines_cons_other by exact Nc. cbn [app]. f_equal. apply IH; [lia|]. intros E. apply H. destruct a; [discriminate E|]. rewrite T by discriminate. exact E.
Qed.

(* ---------- the tokenizer, with lookahead ---------- *)
Fixpoint look (d s : str) : str * option str :=
  match s with
  | [] => (d, None)
  | c :: t =>
    if starts [45; 45; 62] s then (d, Some (skipn 3 s))
    else if starts [45; 45; 33; 62] s then (d, Some (skipn 4 s))
    else if str_eqb s [45] || str_eqb s [45; 45] || str_eqb s [45; 45; 33] then (d, None)
    else look (d ++ [nul c])%list t
  end.
Section Tok.
Variables (sc : bool) (last : str).
Definition after (p : str * option str) : list token :=
  match p with (d, Some r) => TComment d :: run sc O last Data r | (d, None) => [TComment d] end.
Lemma look_cons d c t : look d (c :: t) = if starts [45; 45; 62] (c :: t) then (d, Some (skipn 3 (c :: t))) else if starts [45; 45; 33; 62] (c :: t) then (d, Some (skipn 4 (c :: t)))
  else if str_eqb (c :: t) [45] || str_eqb (c :: t) [45; 45] || str_eqb (c :: t) [45; 45; 33] then (d, None) else look (d ++ [nul c])%list t.
Proof. reflexivity. Qed.
Lemma look_other d c t : c <> 45 -> look d (c :: t) = look (d ++ [nul c])%list t.
Proof. intros H. rewrite look_cons. cbn [starts]. unfold str_eqb. replace (45 =? c) with false by lia. replace (c =? 45) with false by lia. reflexivity. Qed.
Lemma str_eqb_cons a s b t : str_eqb (a :: s) (b :: t) = (a =? b) && str_eqb s t.
Proof. reflexivity. Qed.
Lemma str_eqb_nc a s : str_eqb (a :: s) [] = false. Proof. reflexivity. Qed.
Lemma str_eqb_nc' a s : str_eqb [] (a :: s) = false. Proof. reflexivity. Qed.
Lemma look_1 d c t : c <> 45 -> look d (45 :: c :: t) = look (d ++ [45])%list (c :: t).
Proof. intros H. rewrite look_cons. cbn [starts]. rewrite !str_eqb_cons, !str_eqb_nc. replace (45 =? c) with false by lia. replace (c =? 45) with false by lia. reflexivity. Qed.
Lemma look_2 d c t : c <> 62 -> c <> 33 -> look d (45 :: 45 :: c :: t) = look (d ++ [45])%list (45 :: c :: t).
Proof. intros H1 H2. rewrite look_cons. cbn [starts]. rewrite !str_eqb_cons, !str_eqb_nc. replace (62 =? c) with false by lia. replace (33 =? c) with false by lia. replace (c =? 33) with false by lia. reflexivity. Qed.
Lemma look_3 d c t : c <> 62 -> look d (45 :: 45 :: 33 :: c :: t) = look (d ++ [45; 45; 33])%list (c :: t).
Proof.
  intros H. rewrite look_cons. cbn [starts]. rewrite !str_eqb_cons, !str_eqb_nc. replace (62 =? c) with false by lia. cbn [N.eqb Pos.eqb andb orb].
  rewrite look_1 by discriminate. rewrite look_other by discriminate. rewrite <- !app_assoc. reflexivity.
Qed.
Lemma comment_run n : forall s d, (List.length s <= n)%nat ->
  run sc O last (Comment d) s = after (look d s) /\ run sc O last (CommentLT d) s = after (look d s) /\ run sc O last (CommentLTBang d) s = after (look d s)
  /\ run sc O last (CommentEndDash d) s = after (look d (45 :: s)) /\ run sc O last (CommentLTBangDash d) s = after (look d (45 :: s))
  /\ run sc O last (CommentEnd d) s = after (look d (45 :: 45 :: s)) /\ run sc O last (CommentLTBangDashDash d) s = after (look d (45 :: 45 :: s))
  /\ run sc O last (CommentEndBang d) s = after (look d (45 :: 45 :: 33 :: s)).
Proof.
  induction n as [|n IH]; intros s d L.
  - destruct s; [|cbn in L; lia]. repeat split.
  - destruct s as [|c t]; [repeat split|]. cbn [List.length] in L. assert (L' : (List.length t <= n)%nat) by lia.
    assert (A : forall d, run sc O last (Comment d) (c :: t) = after (look d (c :: t))).
    { intros d0. destruct (N.eqb_spec c 60) as [->|N1].
      - rewrite (run_eat _ _ _ _ _ (CommentLT (snoc d0 60))) by reflexivity. rewrite look_other by discriminate. apply (IH t _ L').
      - destruct (N.eqb_spec c 45) as [->|N2].
        + rewrite (run_eat _ _ _ _ _ (CommentEndDash d0)) by reflexivity. apply (IH t _ L').
        + rewrite (run_eat _ _ _ _ _ (Comment (snoc d0 (nul c)))) by (cbn [step]; replace (c =? 60) with false by lia; replace (c =? 45) with false by lia; reflexivity). rewrite look_other by exact N2. apply (IH t _ L'). }
    assert (B : forall d, run sc O last (CommentEndDash d) (c :: t) = after (look d (45 :: c :: t))).
    { intros d0. destruct (N.eqb_spec c 45) as [->|N2].
      - rewrite (run_eat _ _ _ _ _ (CommentEnd d0)) by reflexivity. apply (IH t _ L').
      - rewrite (run_again _ _ _ _ _ [] (Comment (snoc d0 45))) by (cbn [step]; replace (c =? 45) with false by lia; reflexivity). cbn [app]. rewrite A, look_1 by exact N2. reflexivity. }
    assert (C : forall d, run sc O last (CommentEnd d) (c :: t) = after (look d (45 :: 45 :: c :: t))).
    { intros d0. destruct (N.eqb_spec c 62) as [->|N1]; [rewrite (run_eatn _ _ _ _ _ [TComment d0] 0 Data) by reflexivity; reflexivity|].
      destruct (N.eqb_spec c 33) as [->|N2]; [rewrite (run_eat _ _ _ _ _ (CommentEndBang d0)) by reflexivity; apply (IH t _ L')|].
      destruct (N.eqb_spec c 45) as [->|N3].
      - rewrite (run_eat _ _ _ _ _ (CommentEnd (snoc d0 45))) by reflexivity. rewrite look_2 by discriminate. apply (IH t _ L').
      - rewrite (run_again _ _ _ _ _ [] (Comment (d0 ++ [45; 45])%list)) by (cbn [step]; replace (c =? 45) with false by lia; replace (c =? 62) with false by lia; replace (c =? 33) with false by lia; reflexivity).
        cbn [app]. rewrite A, look_2, look_1 by assumption. rewrite <- app_assoc. reflexivity. }
    split; [apply A|]. split.
    { destruct (N.eqb_spec c 33) as [->|N1]; [rewrite (run_eat _ _ _ _ _ (CommentLTBang (snoc d 33))) by reflexivity; rewrite look_other by discriminate; apply (IH t _ L')|].
      destruct (N.eqb_spec c 60) as [->|N2]; [rewrite (run_eat _ _ _ _ _ (CommentLT (snoc d 60))) by reflexivity; rewrite look_other by discriminate; apply (IH t _ L')|].
      rewrite (run_again _ _ _ _ _ [] (Comment d)) by (cbn [step]; replace (c =? 60) with false by lia; replace (c =? 33) with false by lia; reflexivity). apply A. }
    split.
    { destruct (N.eqb_spec c 45) as [->|N1]; [rewrite (run_eat _ _ _ _ _ (CommentLTBangDash d)) by reflexivity; apply (IH t _ L')|].
      rewrite (run_again _ _ _ _ _ [] (Comment d)) by (cbn [step]; replace (c =? 45) with false by lia; reflexivity). apply A. }
    split; [apply B|]. split.
    { destruct (N.eqb_spec c 45) as [->|N1]; [rewrite (run_eat _ _ _ _ _ (CommentLTBangDashDash d)) by reflexivity; apply (IH t _ L')|].
      rewrite (run_again _ _ _ _ _ [] (CommentEndDash d)) by (cbn [step]; replace (c =? 45) with false by lia; reflexivity). apply B. }
    split; [apply C|]. split.
    { rewrite (run_again _ _ _ _ _ [] (CommentEnd d)) by reflexivity. apply C. }
    destruct (N.eqb_spec c 45) as [->|N1].
    + rewrite (run_eat _ _ _ _ _ (CommentEndDash (d ++ [45; 45; 33])%list)) by reflexivity. rewrite look_3 by discriminate. apply (IH t _ L').
    + destruct (N.eqb_spec c 62) as [->|N2]; [rewrite (run_eatn _ _ _ _ _ [TComment d] 0 Data) by reflexivity; reflexivity|].
      rewrite (run_again _ _ _ _ _ [] (Comment (d ++ [45; 45; 33])%list)) by (cbn [step]; replace (c =? 45) with false by lia; replace (c =? 62) with false by lia; reflexivity).
      rewrite look_3 by exact N2. apply A.
Qed.
Lemma start_run s : run sc O last CommentStart s = after (if starts [62] s then ([], Some (skipn 1 s)) else if starts [45; 62] s then ([], Some (skipn 2 s)) else look [] s).
Proof.
  destruct s as [|c t]; [reflexivity|]. destruct (N.eqb_spec c 62) as [->|N1]; [rewrite (run_eatn _ _ _ _ _ [TComment []] 0 Data) by reflexivity; reflexivity|].
  cbn [starts]. replace (62 =? c) with false by lia. cbn [andb]. destruct (N.eqb_spec c 45) as [->|N2].
  - rewrite (run_eat _ _ _ _ _ CommentStartDash) by reflexivity. destruct t as [|e t]; [reflexivity|].
    destruct (N.eqb_spec e 62) as [->|N3]; [rewrite (run_eatn _ _ _ _ _ [TComment []] 0 Data) by reflexivity; reflexivity|]. replace (62 =? e) with false by lia. cbn [andb N.eqb Pos.eqb].
    destruct (N.eqb_spec e 45) as [->|N4].
    + rewrite (run_eat _ _ _ _ _ (CommentEnd [])) by reflexivity. apply (comment_run (List.length t) t [] (le_n _)).
    + rewrite (run_again _ _ _ _ _ [] (Comment [45])) by (cbn [step]; replace (e =? 45) with false by lia; replace (e =? 62) with false by lia; reflexivity). cbn [app]. rewrite look_1 by exact N4. apply (comment_run (List.length (e :: t)) (e :: t) [45] (le_n _)).
  - replace (45 =? c) with false by lia. cbn [andb]. rewrite (run_again _ _ _ _ _ [] (Comment [])) by (cbn [step]; replace (c =? 45) with false by lia; replace (c =? 62) with false by lia; reflexivity). apply (comment_run (List.length (c :: t)) (c :: t) [] (le_n _)).
Qed.
End Tok.
