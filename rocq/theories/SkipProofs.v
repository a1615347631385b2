(* Proofs about SkipModel *)
From Coq Require Import NArith List Bool String Lia.
From Verif Require Import Str StrFacts ScanModel GuardModel SkipModel SkipSpec.
Import ListNotations.
Open Scope list_scope.
Open Scope N_scope.

Lemma drop_while_le p s : (List.length (drop_while p s) <= List.length s)%nat.
Proof. induction s as [|c s IH]; cbn; [lia|]. destruct (p c); cbn; lia. Qed.

Lemma take_drop_suffix p s : exists a, s = a ++ drop_while p s.
Proof. exists (take_while p s). apply drop_while_app. Qed.

Lemma skipn_suffix {A} n (s : list A) : exists a, s = a ++ skipn n s.
Proof. exists (firstn n s). symmetry. apply firstn_skipn. Qed.

Definition suffix (t s : str) : Prop := exists a, s = a ++ t.
Lemma suffix_refl s : suffix s s. Proof. exists []; reflexivity. Qed.
Lemma suffix_trans a b c : suffix a b -> suffix b c -> suffix a c.
Proof. intros [x ->] [y ->]. exists (y ++ x). apply app_assoc. Qed.
Lemma suffix_skipn n s : suffix (skipn n s) s. Proof. apply skipn_suffix. Qed.
Lemma suffix_cons c s : suffix s (c :: s). Proof. exists [c]; reflexivity. Qed.
Lemma suffix_nil s : suffix [] s. Proof. exists s. symmetry. apply app_nil_r. Qed.
Lemma suffix_len a b : suffix a b -> (List.length a <= List.length b)%nat.
Proof. intros [x ->]. rewrite app_length. lia. Qed.

Lemma tag_name_suffix s n r : tag_name s = (n, r) -> s = n ++ r.
Proof.
  unfold tag_name. destruct s as [|c s]; [intros H; inversion H; reflexivity|]. destruct (letter c); intros H; inversion H; [|reflexivity].
  exact (drop_while_app _ (c :: s)).
Qed.

Section scan.
Variables strict scripting : bool.
Variable name : str.
Notation markup := (markup strict scripting name).
Notation step := (step strict scripting name).
Notation skip_go := (skip_go strict scripting name).

(* what one piece of markup leads to *)
Lemma markup_inr d p d' t : markup d p = inr (d', t) ->
  suffix t p /\ (d' = d \/ d' = S d \/
    exists nm r, p = 47 :: nm ++ r /\ nm <> [] /\ fold strict nm = name /\ d' = pred d
      /\ ((find_char 62 r = None /\ t = []) \/ exists k, find_char 62 r = Some k /\ t = skipn (S k) r)).
Proof.
  unfold SkipModel.markup.
  destruct (match p with c :: _ => _ | [] => _ end).
  { destruct (find (u "]]>") (skipn 8 p)) as [j|]; [|discriminate]. intros H; inversion H; subst.
    split; [|auto]. eapply suffix_trans; [apply suffix_skipn|exact (suffix_skipn 8 p)]. }
  destruct (match p with c :: t => if c =? 47 then (true, t) else (false, p) | [] => (false, p) end) as [is_end q] eqn:Q.
  assert (SQ : suffix q p /\ (is_end = true -> p = 47 :: q)).
  { destruct p as [|c p']; [inversion Q; split; [apply suffix_refl|discriminate]|]. destruct (N.eqb_spec c 47) as [->|];
      inversion Q; subst; [split; [apply suffix_cons|reflexivity]|split; [apply suffix_refl|discriminate]]. }
  destruct SQ as [SQ EQ]. destruct (tag_name q) as [raw r] eqn:T. apply tag_name_suffix in T.
  destruct raw as [|c raw]; [intros H; inversion H; subst; auto|].
  set (tag := fold strict (c :: raw)). set (pos := match find_char 62 r with None => [] | Some k => skipn (S k) r end).
  assert (SP : suffix pos p).
  { eapply suffix_trans; [|exact SQ]. subst q. eapply suffix_trans; [|exists (c :: raw); reflexivity].
    unfold pos. destruct (find_char 62 r); [apply suffix_skipn|apply suffix_nil]. }
  cbv zeta. destruct (is_end && _ && _)%bool; [discriminate|]. destruct (negb is_end && _ && in_strs tag full_parse_tags)%bool; [discriminate|].
  destruct (negb is_end && _ && in_strs tag plaintext_tags)%bool; [discriminate|].
  destruct (negb is_end && _ && _)%bool.
  { unfold rawtext_end. destruct (if str_eqb tag (u "script") then _ else _) as [[a b]|]; cbn; [|discriminate]. intros H; inversion H; subst.
    split; [|auto]. eapply suffix_trans; [apply suffix_skipn|exact SP]. }
  intros H; inversion H; subst d' t; clear H. split; [exact SP|].
  destruct (str_eqb tag name) eqn:E; [|auto]. destruct is_end; [|auto]. right; right.
  apply str_eqb_eq in E. exists (c :: raw), r. rewrite (EQ eq_refl), T. repeat split; [discriminate|exact E|].
  unfold pos. destruct (find_char 62 r) as [k|]; [right; exists k; auto|left; auto].
Qed.

Lemma step_inr d s d' t : step d s = inr (d', t) -> exists i, find_char 60 s = Some i /\ markup d (skipn (S i) s) = inr (d', t).
Proof. unfold SkipModel.step. destruct (find_char 60 s) as [i|]; [|discriminate]. eauto. Qed.

Lemma step_shorter d s d' t : step d s = inr (d', t) -> (List.length t < List.length s)%nat.
Proof.
  intros H. destruct (step_inr _ _ _ _ H) as (i & F & M). apply markup_inr in M as [M _]. apply suffix_len in M.
  apply find_char_Some in F. rewrite skipn_length in M.
  assert (i < List.length s)%nat; [|lia]. destruct F as (a & b & -> & <- & _). rewrite app_length. cbn. lia.
Qed.

Lemma go_fuel f : forall g d s, (List.length s < f)%nat -> (List.length s < g)%nat -> skip_go f d s = skip_go g d s.
Proof.
  induction f as [|f IH]; intros g d s A B; [lia|]. destruct g as [|g]; [lia|]. cbn [SkipModel.skip_go].
  destruct d as [|d]; [reflexivity|]. destruct s as [|c s]; [reflexivity|].
  destruct (step (S d) (c :: s)) as [|[d' t]] eqn:E; [reflexivity|]. apply step_shorter in E. apply IH; lia.
Qed.

(* what ends the scan before the end tag *)
Lemma markup_inl d p x : markup d p = inl x ->
  x = Full \/ x = Eof /\ ((ascii_startswith (u "<![cdata[") (60 :: p) = true /\ contains (u "]]>") (skipn 8 p) = false)
                          \/ exists nm r, p = nm ++ r /\ fold strict nm = u "plaintext").
Proof.
  unfold SkipModel.markup.
  destruct (match p with c :: _ => _ | [] => _ end) eqn:C.
  { destruct (find (u "]]>") (skipn 8 p)) eqn:F; [discriminate|]. intros H; inversion H. right. split; [reflexivity|]. left. split.
    - destruct p; [discriminate|]. apply andb_true_iff in C. apply C.
    - unfold contains. rewrite F. reflexivity. }
  destruct (match p with c :: t => if c =? 47 then (true, t) else (false, p) | [] => (false, p) end) as [is_end q] eqn:Q.
  destruct (tag_name q) as [[|y raw] r] eqn:T; [discriminate|]. cbv zeta.
  destruct (is_end && _ && _)%bool; [intros H; inversion H; auto|].
  destruct (negb is_end && _ && in_strs _ full_parse_tags)%bool; [intros H; inversion H; auto|].
  destruct (negb is_end && _ && in_strs _ plaintext_tags)%bool eqn:P.
  { intros H; inversion H. right. split; [reflexivity|]. right. apply andb_true_iff in P as [P P2]. apply andb_true_iff in P as [P _].
    apply tag_name_suffix in T. exists (y :: raw), r. split.
    - rewrite <- T. destruct p as [|c p']; [inversion Q; reflexivity|]. destruct (c =? 47); inversion Q; subst; [discriminate|reflexivity].
    - apply in_strs_In in P2. destruct P2 as [P2|[]]. symmetry. exact P2. }
  destruct (negb is_end && _ && (_ || _ || _))%bool; [|intros H; discriminate H].
  destruct (rawtext_end _ _); [intros H; discriminate H|]. intros H; inversion H; auto.
Qed.
Lemma step_inl d s x : step d s = inl x -> x = Full \/ x = Eof /\ exists pre p, s = pre ++ 60 :: p /\
    ((ascii_startswith (u "<![cdata[") (60 :: p) = true /\ contains (u "]]>") (skipn 8 p) = false)
     \/ exists nm r, p = nm ++ r /\ fold strict nm = u "plaintext").
Proof.
  unfold SkipModel.step. destruct (find_char 60 s) as [i|] eqn:F; [|intros H; inversion H; auto]. intros H. apply markup_inl in H as [H|[H R]]; [auto|].
  right. split; [exact H|]. apply find_char_Some in F. destruct F as (a & b & -> & <- & _). exists a, b. split; [reflexivity|].
  assert (E : skipn (S (List.length a)) (a ++ 60 :: b) = b) by (clear; induction a; [reflexivity|exact IHa]). rewrite E in R. exact R.
Qed.

Lemma go_total f : forall d s, (List.length s < f)%nat -> skip_go f d s <> OutOfFuel.
Proof.
  induction f as [|f IH]; intros d s A; [lia|]. cbn [SkipModel.skip_go].
  destruct d as [|d]; [destruct (ascii_startswith _ _); discriminate|]. destruct s as [|c s]; [discriminate|].
  destruct (step (S d) (c :: s)) as [r|[d' t]] eqn:E.
  - apply step_inl in E as [E|[E _]]; rewrite E; discriminate.
  - apply step_shorter in E. apply IH. lia.
Qed.

Definition run d s := skip_go (S (List.length s)) d s.
Lemma go_S f d c s : skip_go (S f) (S d) (c :: s) = match step (S d) (c :: s) with inl r => r | inr (d', t) => skip_go f d' t end.
Proof. reflexivity. Qed.
Lemma run_step d s : s <> [] -> run (S d) s = match step (S d) s with inl r => r | inr (d', t) => run d' t end.
Proof.
  intros H. destruct s as [|c s]; [congruence|]. unfold run at 1. rewrite go_S.
  destruct (step (S d) (c :: s)) as [|[d' t]] eqn:E; [reflexivity|]. apply step_shorter in E. apply go_fuel; [exact E|lia].
Qed.

Lemma run_lt d p : run (S d) (60 :: p) = match markup (S d) p with inl r => r | inr (d', t) => run d' t end.
Proof. rewrite run_step by discriminate. reflexivity. Qed.

Lemma find_char_app c a s : existsb (N.eqb c) a = false -> find_char c (a ++ s) = option_map (fun i => (List.length a + i)%nat) (find_char c s).
Proof.
  induction a as [|x a IH]; cbn; intros H; [destruct (find_char c s); reflexivity|]. apply orb_false_iff in H as [H1 H2].
  rewrite N.eqb_sym in H1. rewrite H1, (IH H2). destruct (find_char c s); reflexivity.
Qed.

Lemma run_chars d c s : existsb (N.eqb 60) c = false -> run (S d) (c ++ s) = run (S d) s.
Proof.
  intros H. destruct c as [|x c]; [reflexivity|]. rewrite run_step by discriminate. unfold SkipModel.step. rewrite find_char_app by exact H.
  destruct (find_char 60 s) as [i|] eqn:F; cbn [option_map].
  - rewrite run_step by (intros ->; discriminate). unfold SkipModel.step. rewrite F.
    replace (S (List.length (x :: c) + i))%nat with (List.length (x :: c) + S i)%nat by lia.
    assert (E : forall n (a b : str), skipn (List.length a + n) (a ++ b) = skipn n b).
    { intros n a b. induction a as [|y a IH]; [reflexivity|]. exact IH. }
    rewrite E. reflexivity.
  - destruct s as [|y s]; [reflexivity|]. rewrite run_step by discriminate. unfold SkipModel.step. rewrite F. reflexivity.
Qed.

(* ---------- soundness ---------- *)
Lemma go_ends f : forall d s rest, skip_go f (S d) s = At rest ->
  exists pre nm r, s = pre ++ [60; 47] ++ nm ++ r /\ nm <> [] /\ fold strict nm = name
    /\ ((~ In 62 r /\ rest = []) \/ exists mid, r = mid ++ [62] ++ rest /\ ~ In 62 mid).
Proof.
  induction f as [|f IH]; [discriminate|]. intros d s rest H. cbn [SkipModel.skip_go] in H.
  destruct s as [|c s]; [discriminate|]. remember (c :: s) as w eqn:W. clear W.
  destruct (step (S d) w) as [x|[d' t]] eqn:E.
  - exfalso. apply step_inl in E as [E|[E _]]; congruence.
  - destruct (step_inr _ _ _ _ E) as (i & F & M).
    assert (W : exists a, w = a ++ 60 :: skipn (S i) w).
    { apply find_char_Some in F. destruct F as (a & b & -> & <- & _). exists a. f_equal. clear. induction a; cbn; [reflexivity|assumption]. }
    destruct W as [a W]. set (p := skipn (S i) w) in *. destruct (markup_inr _ _ _ _ M) as [SU K].
    destruct d' as [|d'].
    + destruct K as [K|[K|K]]; [discriminate|discriminate|]. destruct K as (nm & r & P & NE & FO & _ & K).
      destruct f as [|f]; [discriminate|]. cbn [SkipModel.skip_go] in H. destruct (ascii_startswith _ _); [discriminate|]. inversion H; subst rest.
      exists a, nm, r. split; [rewrite W, P; reflexivity|]. split; [exact NE|]. split; [exact FO|].
      destruct K as [[K1 K2]|(k & K1 & K2)]; [left; split; [apply find_char_None; exact K1|exact K2]|right].
      apply find_char_Some in K1. destruct K1 as (m & b & -> & <- & NI). exists m. split; [|exact NI]. rewrite K2. f_equal. cbn [app].
      f_equal. clear. induction m; cbn; [reflexivity|assumption].
    + destruct (IH _ _ _ H) as (pre & nm & r & P & R). destruct SU as [b SU]. exists (a ++ 60 :: b ++ pre), nm, r. split; [|exact R].
      rewrite W, SU, P. rewrite <- !app_assoc. cbn [app]. rewrite <- !app_assoc. reflexivity.
Qed.

Lemma go_eof f : forall d s, skip_go f (S d) s = Eof ->
  exists pre p, s = pre ++ 60 :: p /\
    ((ascii_startswith (u "<![cdata[") (60 :: p) = true /\ contains (u "]]>") (skipn 8 p) = false)
     \/ exists nm r, p = nm ++ r /\ fold strict nm = u "plaintext").
Proof.
  induction f as [|f IH]; [discriminate|]. intros d s H. cbn [SkipModel.skip_go] in H.
  destruct s as [|c s]; [discriminate|]. remember (c :: s) as w eqn:W. clear W.
  assert (W : forall i, find_char 60 w = Some i -> exists a, w = a ++ 60 :: skipn (S i) w).
  { intros i F. apply find_char_Some in F. destruct F as (a & b & -> & <- & _). exists a. f_equal. clear. induction a; cbn; [reflexivity|assumption]. }
  destruct (step (S d) w) as [x|[d' t]] eqn:E.
  - subst x. apply step_inl in E as [E|[_ E]]; [discriminate|exact E].
  - destruct (step_inr _ _ _ _ E) as (i & F & M). destruct (W i F) as [a W']. destruct (markup_inr _ _ _ _ M) as [SU _].
    destruct d' as [|d']; [destruct f; [discriminate|]; cbn [SkipModel.skip_go] in H; destruct (ascii_startswith _ _); discriminate|].
    destruct (IH _ _ H) as (pre & p & P & R). destruct SU as [b SU]. exists (a ++ 60 :: b ++ pre), p. split; [|exact R].
    rewrite W', SU, P. rewrite <- !app_assoc. cbn [app]. rewrite <- !app_assoc. reflexivity.
Qed.
End scan.
