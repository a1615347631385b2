(* C45: the fenced block of a pre element; builders seen as text *)
From Coq Require Import Lia ZifyBool ZifyN ZifyNat.
From Verif Require Import Str StrFacts SerializerModel MdModel MdSpec MdProofs.
Open Scope list_scope. Open Scope N_scope.

Lemma repeat_rev (c : N) n : rev (repeat c n) = repeat c n.
Proof. induction n as [|n IH]; [reflexivity|]. cbn [repeat rev]. rewrite IH. clear. induction n; [reflexivity|]. cbn [repeat app]. rewrite IHn. reflexivity. Qed.
Lemma rstrip_fence p n : p 96%N = false -> rstrip_by p (repeat 96%N n) = repeat 96%N n.
Proof. intros H. unfold rstrip_by. rewrite repeat_rev. destruct n; [reflexivity|]. cbn [repeat drop_while]. rewrite H. change (96%N :: repeat 96%N n) with (repeat 96%N (S n)). apply repeat_rev. Qed.
Lemma mem_repeat c n : c <> 96 -> mem c (repeat 96%N n) = false.
Proof. intros H. destruct (mem c (repeat 96%N n)) eqn:E; [|reflexivity]. apply StrFacts.mem_In, repeat_spec in E. congruence. Qed.
Lemma rstrip_split p s : exists t, s = rstrip_by p s ++ t /\ forall c, In c t -> p c = true.
Proof.
  unfold rstrip_by. pose proof (drop_while_app p (rev s)) as D. exists (rev (take_while p (rev s))). split; [rewrite <- rev_app_distr, <- D, rev_involutive; reflexivity|]. intros c I. apply in_rev in I. exact (proj1 (forallb_forall p _) (take_while_all p (rev s)) c I).
Qed.
Lemma rstrip_last_ok p s t c : rstrip_by p s = t ++ [c] -> p c = false.
Proof. unfold rstrip_by. intros E. assert (K : drop_while p (rev s) = c :: rev t) by (rewrite <- (rev_involutive (drop_while p (rev s))), E, rev_app_distr; reflexivity). exact (drop_while_head _ _ _ _ K). Qed.
Definition pre_body (code : str) : str := rstrip_by sp_tab (rstrip_by (fun c => c =? 10) code).
Lemma pre_raw_nl w : mem 10 (rstrip_by (fun c => c =? 10) w) = true -> Nat.min 2 (List.length (take_while (fun c => c =? 10) (rev (rstrip_by (fun c => c =? 10) w)))) = 0%nat.
Proof.
  intros _. destruct (rstrip_by (fun c => c =? 10) w) as [|x l] eqn:E using rev_ind; [reflexivity|]. rewrite rev_app_distr. cbn [rev app take_while]. rewrite (rstrip_last_ok _ _ _ _ E). reflexivity.
Qed.
Lemma raw_simple s b : pending_space b = false -> newline_count b <> 0%nat \/ last_backtick (buf b) = false -> buf (raw s b) = (match s with [] => [] | _ => [s] end) ++ buf b.
Proof.
  intros Hp Hn. destruct s as [|c s]; [reflexivity|]. cbn [raw]. rewrite Hp. cbn [andb buf]. destruct Hn as [Hn|Hn]; [destruct (Nat.eqb_spec (newline_count b) 0); [contradiction|reflexivity]|rewrite Hn, andb_false_r; reflexivity].
Qed.
Definition content (b : builder) : str := List.concat (rev (buf b)).
Lemma pre_output p ns attrs cs tc : let code := node_text (NElem (u "pre") ns attrs cs tc) in
  to_markdown p (NElem (u "pre") ns attrs cs tc) = Some (backtick_fence code 3 ++ [10] ++ (match code with [] => [] | _ => pre_body code ++ [10] end) ++ backtick_fence code 3).
Proof.
  intros code. unfold to_markdown. assert (W : walk p (NElem (u "pre") ns attrs cs tc) O false (new_builder O) =
    Some (ensure_newlines 2 (raw (backtick_fence code 3) (match code with [] => newline (raw (backtick_fence code 3) (blank_first (new_builder O))) | _ => newline (raw (rstrip_by (fun c => c =? 10) code) (newline (raw (backtick_fence code 3) (blank_first (new_builder O))))) end)))) by reflexivity.
  rewrite W. clear W. cbn [option_map]. f_equal. unfold backtick_fence. set (n := Nat.max 3 _). assert (Hn : exists k, n = S (S (S k))) by (exists (n - 3)%nat; lia). destruct Hn as [k Hk]. set (fence := repeat 96%N n). assert (Hf : fence = 96 :: 96 :: 96 :: repeat 96%N k) by (unfold fence; rewrite Hk; reflexivity).
  assert (Mf : mem 10 fence = false) by (apply mem_repeat; discriminate). assert (Rf : rstrip_by sp_tab fence = fence) by (apply rstrip_fence; reflexivity).
  assert (B1 : raw fence (blank_first (new_builder 0)) = Builder 0 [fence] false 0 false) by (rewrite Hf; cbn [raw]; rewrite <- Hf, Mf; reflexivity).
  rewrite B1. assert (B2 : newline (Builder 0 [fence] false 0 false) = Builder 0 [[10]; fence] false 1 false) by (unfold newline; cbn [buf rstrip_last newline_count quote_depth leading_space]; rewrite Rf; reflexivity). rewrite B2.
  assert (Fin : forall m l j, newline_count m = S j -> pending_space m = false -> buf m = l -> finish (ensure_newlines 2 (raw fence m)) = strip_by (fun c => mem c [32; 9; 10]) (List.concat (rev l) ++ fence ++ [10; 10])).
  { intros m l j H1 H2 H3. assert (B3 : raw fence m = Builder (quote_depth m) (fence :: l) (leading_space m) 0 false) by (rewrite Hf; cbn [raw]; rewrite H1, H2, H3; cbn [Nat.eqb andb]; rewrite <- Hf, Mf; reflexivity). rewrite B3. unfold ensure_newlines. cbn [newline_count Nat.sub Nat.iter nat_rect]. unfold newline. cbn [buf rstrip_last newline_count quote_depth leading_space]. rewrite Rf. unfold finish. cbn [buf]. f_equal. cbn [rev]. change (rstrip_by sp_tab [10]) with [10]. rewrite !concat_app. cbn [List.concat app]. rewrite !app_nil_r, <- !app_assoc. reflexivity. }
  assert (Str : forall x, strip_by (fun c => mem c [32; 9; 10]) ((fence ++ x ++ fence) ++ [10; 10]) = fence ++ x ++ fence).
  { intros x. unfold strip_by, lstrip_by. rewrite Hf at 1. cbn [app drop_while]. change (mem 96 [32; 9; 10]) with false. cbv iota. change (96 :: 96 :: 96 :: (repeat 96%N k ++ x ++ fence) ++ [10; 10]) with (((96 :: 96 :: 96 :: repeat 96%N k) ++ x ++ fence) ++ [10; 10]). rewrite <- Hf. unfold rstrip_by. rewrite rev_app_distr. cbn [rev app drop_while]. change (mem 10 [32; 9; 10]) with true. cbv iota.
    rewrite !rev_app_distr. unfold fence at 1. rewrite repeat_rev. fold fence. rewrite Hf at 1. cbn [app drop_while]. change (mem 96 [32; 9; 10]) with false. cbv iota. change (96 :: 96 :: 96 :: (repeat 96%N k ++ rev x) ++ rev fence) with (((96 :: 96 :: 96 :: repeat 96%N k) ++ rev x) ++ rev fence). rewrite <- Hf. rewrite !rev_app_distr, !rev_involutive. unfold fence at 2. rewrite repeat_rev. reflexivity. }
  destruct code as [|c0 code0] eqn:Ec.
  - rewrite (Fin (Builder 0 [[10]; fence] false 1 false) [[10]; fence] 0%nat eq_refl eq_refl eq_refl). cbn [app]. etransitivity; [|exact (Str [10])]. f_equal.
  - set (w := c0 :: code0) in *. unfold pre_body. set (b := rstrip_by (fun c => c =? 10) w) in *.
    assert (B3 : exists j, newline (raw b (Builder 0 [[10]; fence] false 1 false)) = Builder 0 ([10] :: (match b with [] => [] | _ => [rstrip_by sp_tab b] end) ++ [[10]; fence]) false (S j) false).
    { pose proof (pre_raw_nl w) as Z. fold b in Z. destruct b as [|x b']; [exists 1%nat; reflexivity|]. cbn [raw pending_space newline_count buf andb Nat.eqb]. destruct (mem 10 (x :: b')); [rewrite (Z eq_refl)|]; exists 0%nat; reflexivity. }
    destruct B3 as [j B3]. rewrite B3. rewrite (Fin (Builder 0 ([10] :: (match b with [] => [] | _ => [rstrip_by sp_tab b] end) ++ [[10]; fence]) false (S j) false) ([10] :: (match b with [] => [] | _ => [rstrip_by sp_tab b] end) ++ [[10]; fence]) j eq_refl eq_refl eq_refl). etransitivity; [|exact (Str ([10] ++ rstrip_by sp_tab b ++ [10]))]. f_equal. destruct b as [|x b'].
    + cbn [rev app List.concat rstrip_by drop_while]. rewrite <- !app_assoc. reflexivity.
    + cbn [rev app List.concat]. rewrite <- !app_assoc. cbn [app]. rewrite <- !app_assoc. reflexivity.
Qed.
Lemma pre_fenced p ns attrs cs tc : let n := NElem (u "pre") ns attrs cs tc in
  exists out, to_markdown p n = Some out /\ fenced_block out (match node_text n with [] => [] | _ => md_lines (pre_body (node_text n) ++ [10]) end).
Proof.
  intros n. unfold n. rewrite pre_output. cbv zeta. set (code := node_text (NElem (u "pre") ns attrs cs tc)). eexists. split; [reflexivity|]. unfold backtick_fence. set (k := Nat.max 3 (longest_run 0 0 code + 1)). exists k. assert (Hk : (3 <= k)%nat) by lia. assert (Lk : (longest_run 0 0 code < k)%nat) by (unfold k; lia). clearbody k. split; [exact Hk|].
  assert (Lf : md_lines (repeat 96%N k) = [repeat 96%N k]) by (apply (lines_plain (repeat 96%N k)) with (acc := []); [intros I; apply repeat_spec in I; discriminate I|intros I; apply repeat_spec in I; discriminate I|destruct k; [lia|discriminate]]).
  assert (L1 : forall t, md_lines (repeat 96%N k ++ 10 :: t) = repeat 96%N k :: md_lines t).
  { intros t. unfold md_lines. rewrite lines_lf. cbn [app]. assert (L0 : md_lines_go [] (repeat 96%N k ++ [10]) = [repeat 96%N k]); [|rewrite L0; reflexivity].
    assert (G : forall m acc, md_lines_go acc (repeat 96%N m ++ [10]) = [rev acc ++ repeat 96%N m]).
    { clear. induction m as [|m IH]; intros acc; [cbn; rewrite app_nil_r; reflexivity|]. cbn [repeat app md_lines_go]. change (96 =? 10) with false. change (96 =? 13) with false. cbv iota. rewrite IH. cbn [rev]. rewrite <- app_assoc. reflexivity. }
    exact (G k []). }
  split.
  - cbn [app]. rewrite L1. f_equal. destruct code as [|c0 code0]; [exact Lf|]. rewrite <- app_assoc. cbn [app]. unfold md_lines. rewrite lines_lf. fold (md_lines (repeat 96%N k)). rewrite Lf. reflexivity.
  - intros line I (i & m & b & _ & Hm & -> & _). assert (I' : In (repeat 32 i ++ repeat 96%N m ++ b) (md_lines (pre_body code ++ [10]))) by (destruct code; [destruct I|exact I]). clear I. rename I' into I. destruct (lines_infix _ _ _ I) as (x & y & E). cbn [rev app] in E. unfold pre_body in E. destruct (rstrip_split (fun c => c =? 10) code) as (t1 & E1 & _). destruct (rstrip_split sp_tab (rstrip_by (fun c => c =? 10) code)) as (t2 & E2 & _).
    set (body := rstrip_by sp_tab (rstrip_by (fun c => c =? 10) code)) in *. assert (Hc : code = body ++ t2 ++ t1) by (rewrite app_assoc, <- E2; exact E1).
    assert (R : repeat 96%N m = repeat 96%N k ++ repeat 96%N (m - k)) by (rewrite <- repeat_app; f_equal; lia). rewrite R in E. assert (Y : exists x' y', body = x' ++ repeat 96%N k ++ y').
    { rewrite <- !app_assoc in E. set (z := repeat 96%N (m - k) ++ b ++ y) in *. rewrite !app_assoc in E. rewrite <- (app_assoc _ (repeat 96%N k) z) in E. destruct z as [|z0 z'] eqn:Ez using rev_ind.
      - exfalso. rewrite app_nil_r in E. assert (K : exists k', k = S k') by (exists (k - 1)%nat; lia). destruct K as [k' ->]. assert (Q : repeat 96%N (S k') = repeat 96%N k' ++ [96]) by (clear; induction k'; [reflexivity|cbn [repeat app] in *; rewrite <- IHk'; reflexivity]). rewrite Q, app_assoc in E. apply app_inj_tail in E as [_ E]. discriminate E.
      - rewrite !app_assoc in E. apply app_inj_tail in E as [E _]. exists (x ++ repeat 32 i), z'. rewrite E, <- !app_assoc. reflexivity. }
    destruct Y as (x' & y' & Y). apply (no_long_run code k Lk x' (y' ++ t2 ++ t1)). rewrite Hc, Y, <- !app_assoc. reflexivity.
Qed.
