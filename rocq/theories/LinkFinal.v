(* PROOFS about LinkModel, continued: exceptions, candidate characters, the walk *)
From Coq Require Import Lia ZifyBool ZifyN ZifyNat Permutation.
From Verif Require Import Str StrFacts UnicodeTables EntitiesModel SerializerModel LinkModel LinkSpec LinkProofs.
Open Scope N_scope.

(* ---- no exception ---- *)
Definition plain_digits (s : str) : Prop := forall c, In c s -> odd_digit c = false.
Lemma plain_incl s t : incl s t -> plain_digits t -> plain_digits s.
Proof. intros I P c Ic. exact (P c (I c Ic)). Qed.
Lemma host_incl s : incl (host_of s) s.
Proof. apply take_while_incl. Qed.
Lemma no_raise_ip cfg cand : plain_digits cand -> check_fuzzy_ip cfg cand <> VRaise.
Proof.
  intros P. unfold check_fuzzy_ip. destruct (_ && _ && _); [|discriminate]. destruct (str_isdigit _); [|discriminate].
  pose proof (valid_ipv4_total (host_of cand) (plain_incl _ _ (host_incl cand) P)) as T. destruct (valid_ipv4 (host_of cand)) as [[|]|]; [apply skip_if_raise|discriminate|contradiction].
Qed.
Lemma no_raise_fuzzy cfg cand : plain_digits cand -> check_fuzzy cfg cand <> VRaise.
Proof.
  intros P. unfold check_fuzzy. destruct (_ && _ && _ && _); [|discriminate]. intros H. apply both_raise in H. destruct H as [H|H]; [exact (skip_if_raise _ H)|].
  assert (T : match tld_of (host_of cand) with None => VSkip | Some t => skip_if (negb (valid_tld cfg t)) end <> VRaise) by (destruct (tld_of (host_of cand)); [apply skip_if_raise|discriminate]).
  destruct (mem 46 (host_of cand) && str_isdigit (no_dots (host_of cand))); [|exact (T H)].
  pose proof (valid_ipv4_total (host_of cand) (plain_incl _ _ (host_incl cand) P)) as V. destruct (valid_ipv4 (host_of cand)) as [[|]|]; [discriminate H|exact (T H)|contradiction].
Qed.
Lemma no_raise_before text start cand : check_before text start cand <> VRaise.
Proof.
  unfold check_before. destruct (_ && _); [|discriminate]. intros H. apply both_raise in H. destruct H as [H|H]; exact (skip_if_raise _ H).
Qed.
Lemma no_raise_rel text start cand : check_proto_rel text start cand <> VRaise.
Proof.
  unfold check_proto_rel. destruct (starts _ _); [|discriminate]. intros H. repeat (apply both_raise in H; destruct H as [H|H]; [exact (skip_if_raise _ H)|]). exact (skip_if_raise _ H).
Qed.
Lemma no_raise_email cfg cand : check_email cfg cand <> VRaise.
Proof.
  unfold check_email. destruct (rsplit1 64 cand) as [[? d]|]; [|discriminate]. destruct (_ && _); [|discriminate]. intros H. apply both_raise in H. destruct H as [H|H]; [exact (skip_if_raise _ H)|].
  destruct (tld_of (host_of d)); [exact (skip_if_raise _ H)|discriminate H].
Qed.
Lemma no_raise_url cand : plain_digits cand -> check_url cand <> VRaise.
Proof.
  intros P. unfold check_url. destruct (starts_any schemes (lower cand)) eqn:ST; [|discriminate]. pose proof (scheme_has_sep cand ST) as F. destruct (find (u "://") cand) as [k|]; [|contradiction].
  set (hp := host_of (skipn (k + 3) cand)). assert (I1 : incl hp cand) by (intros c I; apply (skipn_incl (k + 3)); exact (host_incl _ c I)).
  set (h2 := match rsplit1 64 hp with Some (_, b) => b | None => hp end).
  assert (I2 : incl h2 cand).
  { unfold h2. destruct (rsplit1 64 hp) as [[a b]|] eqn:R; [|exact I1]. apply rsplit1_spec in R. destruct R as [R _]. intros c I. apply I1. rewrite R. apply in_or_app. right. right. exact I. }
  destruct (match (if starts (u "[") h2 then None else split1 58 h2) with Some (a, b) => (a, b) | None => (h2, []) end) as [host port] eqn:HP.
  assert (I3 : incl host cand).
  { destruct (starts (u "[") h2); [injection HP as <- _; exact I2|]. destruct (split1 58 h2) as [[a b]|] eqn:SP; injection HP as <- _; [|exact I2]. apply split1_spec in SP. intros c I. apply I2. rewrite SP. apply in_or_app. left. exact I. }
  intros H. repeat (apply both_raise in H; destruct H as [H|H]; [exact (skip_if_raise _ H)|]). destruct (mem 46 host && str_isdigit (no_dots host)); [|discriminate H].
  pose proof (valid_ipv4_total host (plain_incl _ _ I3 P)) as V. destruct (valid_ipv4 host); [exact (skip_if_raise _ H)|contradiction].
Qed.
Lemma at_incl text s x : at_offset text s x -> incl x text.
Proof. intros (a & b & -> & _) c I. apply in_or_app. right. apply in_or_app. left. exact I. Qed.
Lemma no_raise_one idna cfg text s e : plain_digits text -> (s <= List.length text)%nat -> one_candidate idna cfg text (s, e) <> FRaise.
Proof.
  intros P LS. unfold one_candidate. destruct (shape text s (firstn (e - s) (skipn s text))) as [[start cand]|] eqn:E; [|discriminate].
  assert (A : at_offset text s (firstn (e - s) (skipn s text))) by (pose proof (at_slice text s (e - s)) as A; rewrite Nat.min_l in A by exact LS; exact A).
  destruct (shape_spec text s _ start cand A E) as (_ & B & _ & _). assert (P' : plain_digits cand) by exact (plain_incl _ _ (at_incl _ _ _ B) P).
  destruct (both _ _) eqn:V; [discriminate| |destruct (href_for cand); discriminate]. intros _.
  repeat (apply both_raise in V; destruct V as [V|V]; [first [exact (no_raise_before _ _ _ V)|exact (no_raise_ip _ _ P' V)|exact (no_raise_rel _ _ _ V)|exact (no_raise_fuzzy _ _ P' V)|exact (no_raise_email _ _ V)]|]). exact (no_raise_url _ P' V).
Qed.
Lemma no_raise_collect idna cfg text spans : plain_digits text -> Forall (fun p => fst p <= List.length text)%nat spans -> collect idna cfg text spans <> None.
Proof.
  intros P H. induction H as [|[s e] t Hs H IH]; [discriminate|]. cbn [collect]. cbn [fst] in Hs. pose proof (no_raise_one idna cfg text s e P Hs) as Q. destruct (one_candidate idna cfg text (s, e)); [exact IH|contradiction|].
  destruct (collect idna cfg text t); [discriminate|exact IH].
Qed.
Lemma no_raise idna cands cfg text : spans_ok cands -> plain_digits text -> find_links_by idna cands cfg text <> None.
Proof.
  intros OK P. unfold find_links_by. destruct text as [|c t]; [discriminate|]. pose proof (no_raise_collect idna cfg (c :: t) (cands (c :: t)) P (OK _)) as Q. destruct (collect idna cfg (c :: t) (cands (c :: t))); [discriminate|contradiction].
Qed.

(* ---- the real candidates ---- *)
Lemma ranges_apart a b : forallb (fun r => forallb (fun r2 => (snd r <? fst r2) || (snd r2 <? fst r)) b) a = true -> forall c, in_ranges a c = true -> in_ranges b c = false.
Proof.
  intros G c H. destruct (in_ranges b c) eqn:E; [|reflexivity]. unfold in_ranges in *. apply existsb_exists in H. apply existsb_exists in E. destruct H as ([l h] & I1 & H1). destruct E as ([l2 h2] & I2 & H2).
  rewrite forallb_forall in G. specialize (G _ I1). rewrite forallb_forall in G. specialize (G _ I2). cbn [fst snd] in *. lia.
Qed.
Definition stop_ranges := (60, 60) :: (62, 62) :: (65372, 65372) :: space_ranges.
Lemma body_ranges c : in_ranges stop_ranges c = false -> body c = true.
Proof.
  unfold stop_ranges, in_ranges. cbn [existsb fst snd]. intros H. unfold body, is_space, in_ranges. lia.
Qed.
Lemma body_decimal c : is_decimal c = true -> body c = true.
Proof. intros H. apply body_ranges. revert c H. apply ranges_apart. vm_compute. reflexivity. Qed.
Lemma body_digit_nd c : in_ranges digit_nondecimal_ranges c = true -> body c = true.
Proof. intros H. apply body_ranges. revert c H. apply ranges_apart. vm_compute. reflexivity. Qed.
Lemma body_numeric c : in_ranges numeric_only_ranges c = true -> body c = true.
Proof. intros H. apply body_ranges. revert c H. apply ranges_apart. vm_compute. reflexivity. Qed.
Lemma body_alpha c : is_alpha c = true -> body c = true.
Proof. intros H. apply body_ranges. revert c H. apply ranges_apart. vm_compute. reflexivity. Qed.
Lemma body_some c l : in_ranges l c = true -> forallb (fun r => forallb (fun r2 => (snd r <? fst r2) || (snd r2 <? fst r)) stop_ranges) l = true -> body c = true.
Proof. intros H G. apply body_ranges. exact (ranges_apart _ _ G c H). Qed.
Lemma body_label c : label_char c = true -> body c = true.
Proof.
  unfold label_char, is_alnum, is_digit. intros H. apply orb_prop in H. destruct H as [H|H].
  - apply orb_prop in H. destruct H as [H|H].
    + apply orb_prop in H. destruct H as [H|H]; [|exact (body_numeric c H)]. apply orb_prop in H. destruct H as [H|H]; [exact (body_alpha c H)|]. apply orb_prop in H. destruct H as [H|H]; [exact (body_decimal c H)|exact (body_digit_nd c H)].
    + apply (body_some c [(95, 95)]); [unfold in_ranges; cbn [existsb fst snd]; lia|vm_compute; reflexivity].
  - apply (body_some c [(9728, 10175)]); [unfold in_ranges; cbn [existsb fst snd]; lia|vm_compute; reflexivity].
Qed.
Lemma body_dash c : label_or_dash c = true -> body c = true.
Proof.
  unfold label_or_dash. intros H. apply orb_prop in H. destruct H as [H|H]; [exact (body_label c H)|]. apply (body_some c [(45, 45)]); [unfold in_ranges; cbn [existsb fst snd]; lia|vm_compute; reflexivity].
Qed.
Lemma body_alnum_ci c : alnum_ci c = true -> body c = true.
Proof.
  unfold alnum_ci, is_alnum_ascii, is_alpha_ascii, is_lower_ascii, is_upper_ascii, is_digit_ascii. intros H. apply (body_some c [(48, 57); (65, 90); (97, 122); (383, 383); (305, 305); (304, 304); (8490, 8490)]); [|vm_compute; reflexivity].
  unfold in_ranges. cbn [existsb fst snd]. lia.
Qed.
Lemma body_mem c l : mem c l = true -> forallb body l = true -> body c = true.
Proof. intros H G. rewrite forallb_forall in G. apply G. apply mem_In. exact H. Qed.
Lemma body_local c : local_char c = true -> body c = true.
Proof.
  unfold local_char. intros H. apply orb_prop in H. destruct H as [H|H]; [exact (body_alnum_ci c H)|]. apply (body_mem _ _ H). vm_compute. reflexivity.
Qed.
(* n characters of s, all of them link characters, at least one *)
Definition good (s : str) (n : nat) : Prop := (1 <= n <= List.length s)%nat /\ forallb body (firstn n s) = true.
Lemma good_prefix a b : (1 <= List.length a)%nat -> forallb body a = true -> good (a ++ b) (List.length a).
Proof. intros L B. split; [rewrite app_length; lia|]. rewrite firstn_app, Nat.sub_diag, firstn_all. cbn [firstn]. rewrite app_nil_r. exact B. Qed.
Lemma good_app a b n : forallb body a = true -> good b n -> good (a ++ b) (List.length a + n).
Proof. intros B [L G]. split; [rewrite app_length; lia|]. rewrite firstn_app_2, forallb_app, B, G. reflexivity. Qed.
Lemma tw_body p s : (forall c, p c = true -> body c = true) -> forallb body (take_while p s) = true.
Proof.
  intros H. apply forallb_forall. intros c I. apply H. pose proof (take_while_all p s) as G. rewrite forallb_forall in G. exact (G c I).
Qed.
Lemma rstrip_prefix p s : exists w, s = rstrip_by p s ++ w.
Proof.
  unfold rstrip_by. exists (rev (take_while p (rev s))). rewrite <- rev_app_distr, <- (drop_while_app p (rev s)). symmetry. apply rev_involutive.
Qed.
Lemma rstrip_first p c s : p c = false -> (1 <= List.length (rstrip_by p (c :: s)))%nat.
Proof.
  intros H. unfold rstrip_by. rewrite rev_length. cbn [rev]. pose proof (drop_while_app p (rev s ++ [c])) as E. destruct (drop_while p (rev s ++ [c])) as [|x t] eqn:D; [|cbn [List.length]; lia].
  exfalso. rewrite app_nil_r in E. pose proof (take_while_all p (rev s ++ [c])) as T. rewrite <- E in T. rewrite forallb_app in T. cbn [forallb] in T. rewrite H, andb_false_r in T. discriminate T.
Qed.
Lemma good_label s n : label s = Some n -> good s n.
Proof.
  unfold label. destruct s as [|c t]; [discriminate|]. destruct (label_char c) eqn:L; [|discriminate]. intros H. assert (n = label_len (take_while label_or_dash (c :: t))) as -> by congruence. unfold label_len.
  set (run := take_while label_or_dash (c :: t)). assert (R : run = c :: take_while label_or_dash t) by (unfold run; cbn [take_while]; unfold label_or_dash at 1; rewrite L; reflexivity).
  destruct (rstrip_prefix (fun c => negb (label_char c)) (firstn 63 run)) as [w W]. set (r := rstrip_by (fun c => negb (label_char c)) (firstn 63 run)) in *.
  assert (E : c :: t = r ++ (w ++ skipn 63 run ++ drop_while label_or_dash (c :: t))) by (rewrite app_assoc, <- W, app_assoc, firstn_skipn; apply drop_while_app).
  assert (R1 : (1 <= List.length r)%nat).
  { unfold r. clear - R L. rewrite R. cbn [firstn]. apply rstrip_first. rewrite L. reflexivity. }
  clearbody r. rewrite E. apply good_prefix.
  - exact R1.
  - assert (B : forallb body run = true) by (apply tw_body; exact body_dash). rewrite <- (firstn_skipn 63 run), W, !forallb_app in B. apply andb_true_iff in B. destruct B as [B _]. apply andb_true_iff in B. exact (proj1 B).
Qed.
Lemma dotted_split s n : dotted_label s = Some n -> exists l r, s = l ++ 46 :: r /\ List.length l = n /\ forallb body l = true.
Proof.
  unfold dotted_label. destruct (label s) as [k|]; [|discriminate]. destruct (drop_while label_or_dash s) as [|c r] eqn:D; [discriminate|].
  destruct (N.eqb_spec c 46) as [->|]; [|discriminate]. cbn [andb]. destruct (Nat.eqb_spec k (List.length (take_while label_or_dash s))) as [E|]; [|discriminate]. intros H. assert (n = k) as -> by congruence.
  exists (take_while label_or_dash s), r. split; [rewrite <- D; apply drop_while_app|]. split; [symmetry; exact E|]. apply tw_body. exact body_dash.
Qed.
Lemma skipn_dot l (r : str) c : skipn (S (List.length l)) (l ++ c :: r) = r.
Proof. change (c :: r) with ([c] ++ r). rewrite app_assoc. replace (S (List.length l)) with (List.length (l ++ [c])) by (rewrite app_length; cbn; lia). rewrite skipn_app, skipn_all, Nat.sub_diag. reflexivity. Qed.
Lemma good_dot l r m : forallb body l = true -> good r m -> good (l ++ 46 :: r) (S (List.length l) + m).
Proof.
  intros B G. change (46 :: r) with ([46] ++ r). rewrite app_assoc. replace (S (List.length l)) with (List.length (l ++ [46])) by (rewrite app_length; cbn; lia). apply good_app; [|exact G]. rewrite forallb_app, B. vm_compute. reflexivity.
Qed.
Lemma good_labels f : forall s n, labels f s = Some n -> good s n.
Proof.
  induction f as [|k IH]; intros s n; cbn [labels]; [exact (good_label s n)|]. destruct (dotted_label s) as [d|] eqn:D; [|exact (good_label s n)].
  destruct (labels k (skipn (S d) s)) as [m|] eqn:Lm; [|exact (good_label s n)]. intros H. injection H as <-. destruct (dotted_split s d D) as (l & r & -> & <- & B). rewrite skipn_dot in Lm. exact (good_dot l r m B (IH r m Lm)).
Qed.
Lemma good_domain s n : domain s = Some n -> good s n.
Proof.
  unfold domain. destruct (dotted_label s) as [d|] eqn:D; [|discriminate]. destruct (labels (List.length s) (skipn (S d) s)) as [m|] eqn:Lm; [|discriminate]. cbn [option_map]. intros H. injection H as <-.
  destruct (dotted_split s d D) as (l & r & E & <- & B). rewrite E in *. rewrite skipn_dot in Lm. exact (good_dot l r m B (good_labels _ r m Lm)).
Qed.
Lemma good_path s n : good s n -> good s (with_path s n).
Proof.
  intros [L B]. unfold with_path. destruct (skipn n s) as [|c t] eqn:E; [split; assumption|]. destruct (N.eqb_spec c 47) as [->|]; [|split; assumption].
  assert (Es : s = firstn n s ++ (47 :: take_while body t) ++ drop_while body t) by (cbn [app]; rewrite <- (drop_while_app body t), <- E; symmetry; apply firstn_skipn).
  rewrite app_assoc in Es. replace (n + 1 + List.length (take_while body t))%nat with (List.length (firstn n s ++ 47 :: take_while body t)) by (rewrite app_length, firstn_length; cbn [List.length]; lia).
  rewrite Es at 1. apply good_prefix; [rewrite app_length; cbn [List.length]; lia|]. rewrite forallb_app, B. cbn [forallb]. change (body 47) with true. apply tw_body. auto.
Qed.
Lemma good_email s n : email s = Some n -> good s n.
Proof.
  unfold email. destruct s as [|c t]; [discriminate|]. destruct (alnum_ci c) eqn:A; [|discriminate]. destruct (drop_while local_char t) as [|a r] eqn:D; [discriminate|].
  destruct (N.eqb_spec a 64) as [->|]; [|discriminate]. cbn [andb]. destruct (_ <=? 63)%nat; [|discriminate]. destruct (domain r) as [m|] eqn:Dm; [|discriminate]. cbn [option_map]. intros H. injection H as <-.
  assert (E : c :: t = (c :: take_while local_char t ++ [64]) ++ r) by (cbn [app]; rewrite <- app_assoc; cbn [app]; rewrite <- D, <- (drop_while_app local_char t); reflexivity).
  rewrite E. replace (S (S (List.length (take_while local_char t) + m))) with (List.length (c :: take_while local_char t ++ [64%N]) + m)%nat by (cbn [List.length]; rewrite app_length; cbn [List.length]; lia).
  apply good_app; [|exact (good_domain r m Dm)]. cbn [forallb]. rewrite (body_alnum_ci c A), forallb_app. rewrite tw_body by exact body_local. vm_compute. reflexivity.
Qed.
Lemma good_ipv4 k : forall s n, ipv4 k s = Some n -> good s n.
Proof.
  induction k as [|k IH]; intros s n; cbn [ipv4].
  - destruct (take_while is_decimal s) as [|c t] eqn:E; [discriminate|]. rewrite <- E. intros H. assert (n = Nat.min 3 (List.length (take_while is_decimal s))) as -> by congruence.
    assert (Es : s = firstn 3 (take_while is_decimal s) ++ skipn 3 (take_while is_decimal s) ++ drop_while is_decimal s) by (rewrite app_assoc, firstn_skipn; apply drop_while_app).
    rewrite <- (firstn_length 3 (take_while is_decimal s)). rewrite Es at 1. apply good_prefix; [rewrite E; cbn [firstn List.length]; lia|].
    pose proof (tw_body is_decimal s body_decimal) as B. rewrite <- (firstn_skipn 3 (take_while is_decimal s)), forallb_app in B. apply andb_true_iff in B. exact (proj1 B).
  - destruct (take_while is_decimal s) as [|c t] eqn:E; [discriminate|]. rewrite <- E. destruct (drop_while is_decimal s) as [|d r] eqn:D; [discriminate|]. destruct (N.eqb_spec d 46) as [->|]; [|discriminate]. cbn [andb]. destruct (_ <=? 3)%nat; [|discriminate].
    destruct (ipv4 k r) as [m|] eqn:Im; [|discriminate]. cbn [option_map]. intros H. assert (n = (S (List.length (take_while is_decimal s)) + m)%nat) as -> by congruence.
    assert (Es : s = take_while is_decimal s ++ 46 :: r) by (rewrite <- D; apply drop_while_app). rewrite Es at 1. apply good_dot; [apply tw_body; exact body_decimal|exact (IH r m Im)].
Qed.
Lemma ci_body x c : 97 <= x <= 122 \/ x = 58 \/ x = 47 \/ x = 46 -> ci x c = true -> body c = true.
Proof.
  intros X H. apply (body_some c [(46, 47); (58, 58); (65, 90); (97, 122); (383, 383); (305, 305); (304, 304); (8490, 8490)]); [|vm_compute; reflexivity].
  unfold ci, alow_c, is_upper_ascii in H. unfold in_ranges. cbn [existsb fst snd]. destruct ((65 <=? c) && (c <=? 90)) eqn:U; lia.
Qed.
Lemma starts_ci_split p : forall s, forallb (fun x => ((97 <=? x) && (x <=? 122)) || (x =? 58) || (x =? 47) || (x =? 46)) p = true -> starts_ci p s = true -> exists a t, s = a ++ t /\ List.length a = List.length p /\ forallb body a = true.
Proof.
  induction p as [|x p IH]; intros s OK H; [exists [], s; repeat split|]. destruct s as [|c s]; [discriminate H|]. cbn [starts_ci forallb] in *. apply andb_true_iff in H. destruct H as [H1 H2]. apply andb_true_iff in OK. destruct OK as [O1 O2].
  destruct (IH s O2 H2) as (a & t & -> & L & B). exists (c :: a), t. cbn [app List.length forallb]. rewrite L, B, (ci_body x c) by (lia || exact H1). repeat split.
Qed.
Lemma good_prefixed p s n : forallb (fun x => ((97 <=? x) && (x <=? 122)) || (x =? 58) || (x =? 47) || (x =? 46)) p = true -> prefixed p s = Some n -> good s n.
Proof.
  intros OK. unfold prefixed. destruct (starts_ci p s) eqn:C; [|discriminate]. destruct (starts_ci_split p s OK C) as (a & t & -> & L & B). rewrite <- L. rewrite skipn_app, skipn_all, Nat.sub_diag. cbn [app skipn].
  destruct (take_while body t) as [|d r] eqn:T; [discriminate|]. rewrite <- T. intros H. assert (n = (List.length a + List.length (take_while body t))%nat) as -> by congruence. apply good_app; [exact B|].
  rewrite (drop_while_app body t) at 1. apply good_prefix; [rewrite T; cbn; lia|]. apply tw_body. auto.
Qed.
Lemma first_some_in l n : first_some l = Some n -> In (Some n) l.
Proof. induction l as [|[m|] l IH]; cbn [first_some]; intros H; [discriminate H|left; exact H|right; exact (IH H)]. Qed.
Lemma good_candidate s n : candidate s = Some n -> good s n.
Proof.
  intros H. unfold candidate in H. apply first_some_in in H. cbn [In] in H. destruct H as [H|[H|[H|[H|[H|[H|[H|[H|[H|[]]]]]]]]]].
  - apply (good_prefixed (u "https://")); [reflexivity|exact H].
  - apply (good_prefixed (u "http://")); [reflexivity|exact H].
  - apply (good_prefixed (u "ftp://")); [reflexivity|exact H].
  - apply (good_prefixed (u "mailto:")); [reflexivity|exact H].
  - apply (good_prefixed (u "//")); [reflexivity|exact H].
  - apply (good_prefixed (u "www.")); [reflexivity|exact H].
  - exact (good_email s n H).
  - destruct (ipv4 3 s) as [m|] eqn:E; [|discriminate H]. injection H as <-. apply good_path. exact (good_ipv4 3 s m E).
  - destruct (domain s) as [m|] eqn:E; [|discriminate H]. injection H as <-. apply good_path. exact (good_domain s m E).
Qed.
(* a span of the scan: inside the text, after a boundary, made of link characters *)
Definition good_span (text : str) (p : nat * nat) : Prop :=
  (fst p < snd p <= List.length text)%nat /\ forallb body (firstn (snd p - fst p) (skipn (fst p) text)) = true /\
  (fst p = O \/ exists c, char_at text (fst p - 1) = Some c /\ boundary c = true).
Lemma scan_good text : forall s pre skip ok, text = pre ++ s -> (skip = O -> ok = true -> pre = [] \/ exists c, char_at text (List.length pre - 1) = Some c /\ boundary c = true) ->
  Forall (good_span text) (scan skip ok (List.length pre) s).
Proof.
  induction s as [|c s IH]; intros pre skip ok E H; cbn [scan]; [constructor|].
  assert (E' : text = (pre ++ [c]) ++ s) by (rewrite <- app_assoc; exact E). assert (L' : S (List.length pre) = List.length (pre ++ [c])) by (rewrite app_length; cbn; lia).
  destruct skip as [|k].
  - assert (Bd : forall b, b = boundary c -> (O = O -> b = true -> (pre ++ [c]) = [] \/ exists c0, char_at text (List.length (pre ++ [c]) - 1) = Some c0 /\ boundary c0 = true)).
    { intros b -> _ B. right. exists c. split; [|exact B]. rewrite <- L'. cbn [Nat.sub]. rewrite Nat.sub_0_r. unfold char_at. rewrite E, nth_error_app2, Nat.sub_diag by lia. reflexivity. }
    destruct (if ok then candidate (c :: s) else None) as [n|] eqn:C.
    + destruct ok; [|discriminate C]. destruct (good_candidate _ _ C) as [G1 G2]. constructor.
      * unfold good_span. cbn [fst snd]. split; [rewrite E, app_length; lia|]. split.
        -- replace (List.length pre + n - List.length pre)%nat with n by lia. rewrite E, skipn_app, skipn_all, Nat.sub_diag. exact G2.
        -- destruct (H eq_refl eq_refl) as [->|Q]; [left; reflexivity|right; exact Q].
      * rewrite L'. apply IH; [exact E'|]. intros _ Q. discriminate Q.
    + rewrite L'. apply IH; [exact E'|]. apply Bd. reflexivity.
  - rewrite L'. apply IH; [exact E'|]. intros _ Q. discriminate Q.
Qed.
Lemma candidates_good text : Forall (good_span text) (candidates text).
Proof. unfold candidates. apply (scan_good text text []); [reflexivity|]. intros _ _. left. reflexivity. Qed.
Lemma candidates_ok : spans_ok candidates.
Proof. intros text. eapply Forall_impl; [|apply candidates_good]. intros p (H & _). lia. Qed.
(* ---- what surrounds and fills a link ---- *)
Lemma at_char text n c x : at_offset text n (c :: x) -> char_at text n = Some c.
Proof. intros (a & b & -> & <-). unfold char_at. rewrite nth_error_app2, Nat.sub_diag by lia. reflexivity. Qed.
Lemma at_same text n x y : at_offset text n x -> at_offset text n y -> (List.length x <= List.length y)%nat -> exists w, y = x ++ w.
Proof.
  intros (a & b & E & L) (a2 & b2 & E2 & L2) LL. rewrite E in E2. assert (a = a2) as <-.
  { apply (f_equal (firstn n)) in E2. rewrite !firstn_app, L, L2, Nat.sub_diag in E2. cbn [firstn] in E2. rewrite !app_nil_r, !firstn_all2 in E2 by lia. exact E2. }
  apply app_inv_head in E2. exists (firstn (List.length y - List.length x) b). apply (f_equal (firstn (List.length y))) in E2. rewrite !firstn_app, Nat.sub_diag in E2. cbn [firstn] in E2. rewrite app_nil_r, firstn_all, firstn_all2 in E2 by lia. symmetry. exact E2.
Qed.
Definition word_char (c : N) : bool := is_alnum_ascii c || (c =? 95).
Lemma boundary_word c : boundary c = true -> word_char c = false.
Proof. unfold boundary, word_char, alnum_ci. lia. Qed.
Lemma opening_word c : opening c -> word_char c = false.
Proof. unfold opening. intros H. change (u "<""'([{") with [60; 34; 39; 40; 91; 123] in H. cbn [In] in H. unfold word_char, is_alnum_ascii, is_alpha_ascii, is_lower_ascii, is_upper_ascii, is_digit_ascii. lia. Qed.
(* a link starts the text or follows a character that is no ASCII letter, digit or underscore, and holds no white space, < or > *)
Definition well_placed (text : str) (l : link) : Prop :=
  (l_start l = O \/ exists c, char_at text (l_start l - 1) = Some c /\ word_char c = false) /\ forallb body (l_text l) = true.
Lemma one_candidate_placed idna cfg text p l : good_span text p -> one_candidate idna cfg text p = FLink l -> well_placed text l.
Proof.
  destruct p as [s e]. intros (LS & B & Bd) H. cbn [fst snd] in *. destruct (one_candidate_ok idna cfg text s e l ltac:(lia) H) as (_ & start & cand & E & <- & <-).
  assert (A : at_offset text s (firstn (e - s) (skipn s text))) by (pose proof (at_slice text s (e - s)) as A; rewrite Nat.min_l in A by lia; exact A).
  destruct (shape_spec text s _ _ _ A E) as (_ & At & Pos & Len). set (raw := firstn (e - s) (skipn s text)) in *. split.
  - destruct Pos as [->|(c & Oc & Ac & Lt)].
    + destruct Bd as [->|(c & C1 & C2)]; [left; reflexivity|right; exists c; split; [exact C1|exact (boundary_word c C2)]].
    + right. exists c. split; [exact (at_char _ _ _ _ Ac)|exact (opening_word c Oc)].
  - (* the link lies inside the span *)
    assert (Ge : (s <= l_start l)%nat) by (destruct Pos as [->|(? & _ & _ & ?)]; lia).
    destruct A as (a & b & Ea & La). destruct At as (a2 & b2 & Ea2 & La2). rewrite Ea in Ea2.
    assert (Sub : skipn (l_start l - s) (raw ++ b) = l_text l ++ b2).
    { apply (f_equal (skipn (l_start l))) in Ea2. rewrite !skipn_app, La, La2, Nat.sub_diag in Ea2. rewrite !(skipn_all2 (n := l_start l)) in Ea2 by lia. cbn [app skipn] in Ea2. rewrite skipn_app. exact Ea2. }
    rewrite skipn_app in Sub. apply (f_equal (firstn (List.length (l_text l)))) in Sub. rewrite (firstn_app _ (l_text l)), Nat.sub_diag, firstn_all in Sub. cbn [firstn] in Sub. rewrite app_nil_r in Sub.
    rewrite firstn_app in Sub. replace (List.length (l_text l) - List.length (skipn (l_start l - s) raw))%nat with O in Sub by (rewrite skipn_length; lia). cbn [firstn] in Sub. rewrite app_nil_r in Sub. rewrite <- Sub.
    apply forallb_forall. intros c I. rewrite forallb_forall in B. apply B. apply (skipn_incl (l_start l - s)). exact (firstn_incl _ _ c I).
Qed.
Lemma collect_all idna cfg text (Q : link -> Prop) spans ls : (forall p l, In p spans -> one_candidate idna cfg text p = FLink l -> Q l) -> collect idna cfg text spans = Some ls -> Forall Q ls.
Proof.
  revert ls. induction spans as [|p t IH]; cbn [collect]; intros ls OK H; [injection H as <-; constructor|]. assert (OK' : forall p l, In p t -> one_candidate idna cfg text p = FLink l -> Q l) by (intros p' l I; apply OK; right; exact I).
  destruct (one_candidate idna cfg text p) as [| |l] eqn:E; [exact (IH _ OK' H)|discriminate H|]. destruct (collect idna cfg text t) as [r|]; [|discriminate H]. injection H as <-. constructor; [exact (OK p l (or_introl eq_refl) E)|exact (IH _ OK' eq_refl)].
Qed.
Lemma keep_incl l : forall last, incl (keep last l) l.
Proof.
  induction l as [|y l IH]; intros last; [intros x []|]. cbn [keep]. destruct (match last with Some e => (l_start y <? e)%nat | None => false end); [apply incl_tl; apply IH|]. intros x [<-|I]; [left; reflexivity|right; exact (IH _ x I)].
Qed.
Lemma find_links_all idna cands cfg text (Q : link -> Prop) ms : (forall p l, In p (cands text) -> one_candidate idna cfg text p = FLink l -> Q l) -> find_links_by idna cands cfg text = Some ms -> Forall Q ms.
Proof.
  intros OK. unfold find_links_by. destruct text as [|c t]; [intros H; injection H as <-; constructor|]. destruct (collect idna cfg (c :: t) (cands (c :: t))) as [ls|] eqn:C; [|discriminate]. cbn [option_map]. intros H.
  assert (ms = keep None (sort ls)) as -> by congruence. pose proof (collect_all _ _ _ _ _ _ OK C) as A. rewrite Forall_forall in *. intros x I. apply A. apply (Permutation_in _ (sort_perm ls)). exact (keep_incl _ _ x I).
Qed.
Lemma find_links_placed idna cfg text ms : find_links idna cfg text = Some ms -> Forall (well_placed text) ms.
Proof.
  intros H. apply (find_links_all idna candidates cfg text _ ms); [|exact H]. intros p l I. apply one_candidate_placed. pose proof (candidates_good text) as G. rewrite Forall_forall in G. exact (G p I).
Qed.
(* ---- completeness of the filter ---- *)
Lemma find_links_maximal idna cands cfg text ms : spans_ok cands -> find_links_by idna cands cfg text = Some ms -> forall p l, In p (cands text) -> text <> [] -> one_candidate idna cfg text p = FLink l ->
  In l ms \/ exists m, In m ms /\ (l_start m <= l_start l < l_end m)%nat.
Proof.
  intros OK H p l I NE E. unfold find_links_by in H. destruct text as [|c t]; [contradiction|]. remember (c :: t) as text eqn:Et. clear Et c t NE.
  destruct (collect idna cfg text (cands text)) as [ls|] eqn:C; [|discriminate H]. cbn [option_map] in H. assert (ms = keep None (sort ls)) as -> by congruence. clear H.
  assert (Il : In l ls).
  { revert ls C. induction (cands text) as [|q spans IH]; intros ls C; [destruct I|]. cbn [collect] in C. destruct I as [->|I].
    - rewrite E in C. destruct (collect idna cfg text spans); [|discriminate C]. injection C as <-. left. reflexivity.
    - destruct (one_candidate idna cfg text q); [exact (IH I _ C)|discriminate C|]. destruct (collect idna cfg text spans) as [r|]; [|discriminate C]. injection C as <-. right. exact (IH I r eq_refl). }
  pose proof (collect_ok _ _ _ _ _ (OK text) C) as A. rewrite Forall_forall in A.
  destruct (keep_complete (sort ls)) with (last := @None nat) (x := l) as [K|[(e & Q & _)|(y & K1 & K2 & K3)]].
  - intros x Ix. apply (in_text_width text). apply A. exact (Permutation_in _ (sort_perm ls) Ix).
  - apply sort_sorted.
  - apply (Permutation_in _ (Permutation_sym (sort_perm ls))). exact Il.
  - left. exact K.
  - discriminate Q.
  - right. exists y. split; [exact K1|]. unfold le_start in K2. lia.
Qed.

(* ---- the pieces ---- *)
Lemma skipn_add (s : str) : forall a b, skipn a (skipn b s) = skipn (a + b) s.
Proof. induction s as [|c s IH]; intros a b; [rewrite !skipn_nil; reflexivity|]. destruct b as [|b]; [rewrite Nat.add_0_r; reflexivity|]. rewrite Nat.add_succ_r. cbn [skipn]. apply IH. Qed.
Definition part_text (p : part) : str := match p with PText t => t | PLink _ t => t end.
Lemma parts_text text ms : forall cursor, Forall (in_text text) ms -> ForallOrdPairs apart ms -> (forall m, In m ms -> (cursor <= l_start m)%nat) -> (cursor <= List.length text)%nat ->
  flat_map part_text (parts text cursor ms) = skipn cursor text.
Proof.
  induction ms as [|m ms IH]; intros cursor T Ap C Lc; cbn [parts].
  - destruct (Nat.ltb_spec cursor (List.length text)) as [L|L]; [cbn; apply app_nil_r|]. rewrite skipn_all2 by lia. reflexivity.
  - apply Forall_cons_iff in T. destruct T as [(At & Ne & En & Sf) T]. inversion Ap as [|? ? A1 A2]. subst. pose proof (C m (or_introl eq_refl)) as Cm.
    destruct At as (a & b & E & La). rewrite flat_map_app. cbn [flat_map part_text].
    assert (Le : (l_end m <= List.length text)%nat) by (rewrite En, E, !app_length; lia).
    rewrite IH; [|exact T|exact A2|intros z I; rewrite Forall_forall in A1; exact (A1 z I)|exact Le].
    assert (E1 : flat_map part_text (if (cursor <? l_start m)%nat then [PText (firstn (l_start m - cursor) (skipn cursor text))] else []) = firstn (l_start m - cursor) (skipn cursor text)).
    { destruct (Nat.ltb_spec cursor (l_start m)) as [L|L]; [cbn; apply app_nil_r|]. replace (l_start m - cursor)%nat with O by lia. reflexivity. }
    rewrite E1.
    assert (E2 : skipn (l_start m) text = l_text m ++ skipn (l_end m) text).
    { rewrite E, <- La, skipn_app, skipn_all, Nat.sub_diag. cbn [app skipn]. f_equal. rewrite En, <- La, <- app_length, app_assoc, skipn_app, skipn_all, Nat.sub_diag. reflexivity. }
    rewrite <- E2. transitivity (firstn (l_start m - cursor) (skipn cursor text) ++ skipn (l_start m - cursor) (skipn cursor text)); [|apply firstn_skipn]. f_equal. rewrite skipn_add. f_equal. lia.
Qed.
Lemma parts_whole idna cands cfg text ms : spans_ok cands -> find_links_by idna cands cfg text = Some ms -> flat_map part_text (parts text O ms) = text.
Proof.
  intros OK H. destruct (find_links_ok _ _ _ _ _ OK H) as [A B]. rewrite parts_text; [reflexivity|exact A|exact B|intros; lia|lia].
Qed.
Lemma parts_kinds text ms : forall cursor p, In p (parts text cursor ms) -> (exists t, p = PText t) \/ exists m, In m ms /\ p = PLink (l_href m) (l_text m).
Proof.
  induction ms as [|m ms IH]; intros cursor p; cbn [parts].
  - destruct (cursor <? List.length text)%nat; [|intros []]. intros [<-|[]]. left. eexists. reflexivity.
  - intros I. apply in_app_or in I. destruct I as [I|[<-|I]].
    + destruct (cursor <? l_start m)%nat; [|destruct I]. destruct I as [<-|[]]. left. eexists. reflexivity.
    + right. exists m. split; [left; reflexivity|reflexivity].
    + destruct (IH _ _ I) as [Q|(m' & I' & Q)]; [left; exact Q|right; exists m'; split; [right; exact I'|exact Q]].
Qed.

(* ---- the walk ---- *)
Lemma lmap_ok {A B} (f : A -> lres B) (P : A -> B -> Prop) l : (forall x, In x l -> f x = LRaise \/ exists y, f x = LOk y /\ P x y) ->
  (lmap f l = LRaise /\ exists x, In x l /\ f x = LRaise) \/ exists ys, lmap f l = LOk ys /\ Forall2 P l ys.
Proof.
  induction l as [|x l IH]; intros H; cbn [lmap]; [right; exists []; split; [reflexivity|constructor]|].
  destruct (H x (or_introl eq_refl)) as [E|(y & E & Py)]; rewrite E; cbn [lbind]; [left; split; [reflexivity|exists x; split; [left; reflexivity|exact E]]|].
  destruct IH as [(E2 & z & Iz & Ez)|(ys & E2 & Ps)]; [intros z I; apply H; right; exact I| |]; rewrite E2; cbn [lbind].
  - left. split; [reflexivity|]. exists z. split; [right; exact Iz|exact Ez].
  - right. exists (y :: ys). split; [reflexivity|]. constructor; assumption.
Qed.
Lemma text_incl x c : In x c -> incl (text_of x) (flat_map text_of c).
Proof. intros I z Iz. apply in_flat_map. exists x. split; assumption. Qed.
Lemma max_depth x c : In x c -> (depth x <= list_max (map depth c))%nat.
Proof.
  intros I. pose proof (list_max_le (map depth c) (list_max (map depth c))) as [Q _]. specialize (Q (Nat.le_refl _)). rewrite Forall_forall in Q. apply Q. apply in_map. exact I.
Qed.
Lemma concat_singles {A} (l : list A) ys : Forall2 (fun x y => y = [x]) l ys -> List.concat ys = l.
Proof. intros H. induction H as [|x y l ys E H IH]; [reflexivity|]. cbn [List.concat]. rewrite E, IH. reflexivity. Qed.
Section Walking.
Variable idna : str -> option str.
Variable cands : str -> list (nat * nat).
Variable cfg : config.
Variable tags : list str.
Hypothesis OK : spans_ok cands.
Lemma walk_skip f : forall ns n, (depth n < f)%nat -> walk idna cands cfg tags f true ns n = LOk [n].
Proof.
  induction f as [|k IH]; intros ns n D; [lia|]. destruct n as [d|d|d|d|c|name ns' attrs c tc]; cbn [walk]; try reflexivity.
  - cbn [depth] in D. destruct (lmap_ok (walk idna cands cfg tags k true None) (fun x y => y = [x]) c) as [(_ & x & I & E)|(ys & E & P)].
    + intros x I. right. exists [x]. split; [|reflexivity]. apply IH. pose proof (max_depth x c I). lia.
    + rewrite IH in E; [discriminate E|]. pose proof (max_depth x c I). lia.
    + rewrite E. cbn [lbind]. rewrite (concat_singles _ _ P). reflexivity.
  - cbn [depth] in D. cbn [orb]. destruct (lmap_ok (walk idna cands cfg tags k true ns') (fun x y => y = [x]) c) as [(_ & x & I & E)|(ys & E & P)].
    + intros x I. right. exists [x]. split; [|reflexivity]. apply IH. pose proof (max_depth x c I). lia.
    + rewrite IH in E; [discriminate E|]. pose proof (max_depth x c I). lia.
    + rewrite E. cbn [lbind]. rewrite (concat_singles _ _ P). destruct tc as [l|]; [|reflexivity].
      destruct (lmap_ok (walk idna cands cfg tags k true None) (fun x y => y = [x]) l) as [(_ & x & I & E2)|(zs & E2 & P2)].
      * intros x I. right. exists [x]. split; [|reflexivity]. apply IH. pose proof (max_depth x l I). lia.
      * rewrite IH in E2; [discriminate E2|]. pose proof (max_depth x l I). lia.
      * rewrite E2. cbn [lbind]. rewrite (concat_singles _ _ P2). reflexivity.
Qed.
Hypothesis Sk : in_strs (u "a") tags = true.
Lemma walk_text k ns d ms : find_links_by idna cands cfg d = Some ms -> walk idna cands cfg tags (S (S k)) false ns (NText d) =
  LOk (match ms with [] => [NText d] | _ => map (fun p => match p with PText t => NText t | PLink h t => NElem (u "a") (link_ns ns) [(u "href", Some h)] [NText t] None end) (parts d O ms) end).
Proof.
  intros F. cbn [walk]. rewrite F. destruct ms as [|m ms]; [reflexivity|]. set (ps := parts d O (m :: ms)). clearbody ps. cbn [orb]. rewrite Sk.
  induction ps as [|p ps IH]; [reflexivity|]. cbn [lmap map]. rewrite IH. destruct p as [t|h t]; reflexivity.
Qed.
Lemma walk_linkified f : forall ns n, (depth n + 2 <= f)%nat ->
  (walk idna cands cfg tags f false ns n = LRaise /\ ~ plain_digits (text_of n)) \/ exists out, walk idna cands cfg tags f false ns n = LOk out /\ linkified tags n out.
Proof.
  induction f as [|k IH]; intros ns n D; [lia|].
  assert (Kids : forall ns' c, (list_max (map depth c) + 2 <= k)%nat ->
    (lmap (walk idna cands cfg tags k false ns') c = LRaise /\ ~ plain_digits (flat_map text_of c)) \/ exists ys, lmap (walk idna cands cfg tags k false ns') c = LOk ys /\ Forall2 (linkified tags) c ys).
  { intros ns' c Dc. destruct (lmap_ok (walk idna cands cfg tags k false ns') (linkified tags) c) as [(E & x & I & Ex)|Q].
    - intros x I. destruct (IH ns' x) as [[E _]|Q]; [pose proof (max_depth x c I); lia|left; exact E|right; exact Q].
    - left. split; [exact E|]. destruct (IH ns' x) as [[_ P]|(out & E2 & _)]; [pose proof (max_depth x c I); lia| |rewrite Ex in E2; discriminate E2]. intros P'. apply P. exact (plain_incl _ _ (text_incl x c I) P').
    - right. exact Q. }
  destruct n as [d|d|d|d|c|name ns' attrs c tc]; cbn [depth] in D.
  - destruct k as [|k]; [lia|]. destruct (find_links_by idna cands cfg d) as [ms|] eqn:F.
    + right. eexists. split; [exact (walk_text k ns d ms F)|]. destruct (find_links_ok _ _ _ _ _ OK F) as [A _]. pose proof (parts_whole _ _ _ _ _ OK F) as W. destruct ms as [|m ms]; [apply L_text; [cbn; apply app_nil_r|repeat constructor]|].
      set (ps := parts d O (m :: ms)) in *. apply L_text.
      * transitivity (flat_map part_text ps); [|exact W]. clear W. clearbody ps. induction ps as [|p ps IHp]; [reflexivity|]. cbn [map flat_map]. rewrite IHp. destruct p; cbn [text_of part_text flat_map]; [reflexivity|]. rewrite !app_nil_r. reflexivity.
      * rewrite Forall_forall in *. intros x I. apply in_map_iff in I. destruct I as (p & <- & I). destruct (parts_kinds _ _ _ _ I) as [[t ->]|(m' & Im & ->)]; [constructor|]. constructor. exact (proj2 (proj2 (proj2 (A m' Im)))).
    + left. cbn [walk]. rewrite F. split; [reflexivity|]. intros P. exact (no_raise idna cands cfg d OK P F).
  - right. exists [NComment d]. split; [reflexivity|constructor].
  - right. exists [NPI d]. split; [reflexivity|constructor].
  - right. exists [NDoctype d]. split; [reflexivity|constructor].
  - cbn [walk]. destruct (Kids None c) as [[E P]|(ys & E & P)]; [lia| |]; rewrite E; cbn [lbind]; [left; split; [reflexivity|exact P]|]. right. eexists. split; [reflexivity|]. apply L_doc. exact P.
  - cbn [walk orb]. destruct (in_strs (lower name) tags) eqn:Sn.
    + right. exists [NElem name ns' attrs c tc]. split; [|apply L_skip; exact Sn].
      pose proof (walk_skip (S k) ns (NElem name ns' attrs c tc)) as Q. cbn [walk orb] in Q. apply Q. cbn [depth]. lia.
    + destruct (Kids ns' c) as [[E P]|(ys & E & P)]; [lia| |]; rewrite E; cbn [lbind].
      { left. split; [reflexivity|]. intros P'. apply P. intros z Iz. apply P'. cbn [text_of]. apply in_or_app. left. exact Iz. }
      destruct tc as [l|].
      * destruct (Kids None l) as [[E2 P2]|(zs & E2 & P2)]; [lia| |]; rewrite E2; cbn [lbind].
        { left. split; [reflexivity|]. intros P'. apply P2. intros z Iz. apply P'. cbn [text_of]. apply in_or_app. right. exact Iz. }
        right. eexists. split; [reflexivity|]. apply L_template; [exact Sn|exact P|exact P2].
      * right. eexists. split; [reflexivity|]. apply L_elem; [exact Sn|exact P].
Qed.
End Walking.
(* without a among the skip tags the walk does not end *)
Lemma endless idna cfg tags : in_strs (u "a") tags = false -> forall f ns, walk idna candidates cfg tags f false ns (NText (u "a.com")) = LFuel.
Proof.
  intros Sk. assert (F : exists h, find_links_by idna candidates cfg (u "a.com") = Some [Link 0 5 (u "a.com") h false]) by (eexists; vm_compute; reflexivity). destruct F as [h F].
  induction f as [|k IH]; intros ns; [reflexivity|]. cbn [walk]. rewrite F. cbn [orb]. rewrite Sk.
  assert (P : parts (u "a.com") 0 [Link 0 5 (u "a.com") h false] = [PLink h (u "a.com")]) by reflexivity. rewrite P. cbn [lmap]. rewrite IH. reflexivity.
Qed.

(* ---- what a link without scheme looks like ---- *)
Lemma both_go a b : both a b = VGo -> a = VGo /\ b = VGo.
Proof. destruct a; cbn [both]; auto; discriminate. Qed.
Lemma skip_if_go b : skip_if b = VGo -> b = false.
Proof. destruct b; [discriminate|reflexivity]. Qed.
Lemma octets_go l : octets l = Some true -> Forall (octet (py_int false 0)) l.
Proof.
  induction l as [|p l IH]; intros H; [constructor|]. cbn [octets] in H. destruct p as [|c p]; [discriminate H|]. remember (c :: p) as q eqn:Eq. destruct (Nat.ltb_spec 3 (List.length q)) as [|L]; [discriminate H|].
  destruct (negb (str_isdigit q)); [discriminate H|]. destruct (py_int false 0 q) as [v|] eqn:V; [|discriminate H]. destruct (N.ltb_spec 255 v) as [|Lv]; [discriminate H|]. constructor; [|exact (IH H)].
  split; [rewrite Eq in *; cbn [List.length] in *; lia|]. exists v. split; [exact V|exact Lv].
Qed.
Lemma split_char_join c s : forall a l, split_char c s = a :: l -> s = a ++ flat_map (fun x => c :: x) l.
Proof.
  induction s as [|x s IH]; intros a l H; cbn [split_char] in H; [injection H as <- <-; reflexivity|]. destruct (N.eqb_spec x c) as [->|Ne].
  - injection H as <- <-. cbn [app]. destruct (split_char c s) as [|w ws] eqn:E; [destruct s; cbn [split_char] in E; [discriminate E|destruct (_ =? _); [discriminate E|destruct (split_char c s); discriminate E]]|]. cbn [flat_map app]. f_equal. exact (IH w ws eq_refl).
  - destruct (split_char c s) as [|w ws] eqn:E; [destruct s; cbn [split_char] in E; [discriminate E|destruct (_ =? _); [discriminate E|destruct (split_char c s); discriminate E]]|]. injection H as <- <-. cbn [app]. f_equal. exact (IH w ws eq_refl).
Qed.
Lemma valid_ipv4_quad h : valid_ipv4 h = Some true -> dotted_quad (py_int false 0) h.
Proof.
  unfold valid_ipv4. destruct (split_char 46 h) as [|a [|b [|c [|d [|e l]]]]] eqn:E; cbn [List.length]; try (intros H; discriminate H). cbn [Nat.eqb negb]. intros H. apply octets_go in H.
  apply split_char_join in E. cbn [flat_map] in E. exists a, b, c, d. inversion H as [|? ? H1 H']; subst. inversion H' as [|? ? H2 H'']; subst. inversion H'' as [|? ? H3 H''']; subst. inversion H''' as [|? ? H4 _]; subst. split; [|exact (conj H1 (conj H2 (conj H3 H4)))].
  rewrite app_nil_r. reflexivity.
Qed.
Definition known_tld (cfg : config) (t : str) : Prop := valid_tld cfg t = true.
Lemma strip_by_infix p s : exists a b, s = a ++ strip_by p s ++ b.
Proof.
  unfold strip_by, lstrip_by. destruct (rstrip_prefix p (drop_while p s)) as [w E]. exists (take_while p s), w. rewrite <- E. apply drop_while_app.
Qed.
Lemma tld_of_has cfg h t : tld_of h = Some t -> valid_tld cfg t = true -> has_tld (known_tld cfg) h.
Proof.
  unfold tld_of. intros H V. destruct (strip_by_infix is_space h) as (a1 & b1 & E1). destruct (strip_by_infix (fun c => mem c (u ".")) (strip h)) as (a2 & b2 & E2). fold (strip h) in E1. fold (strip_chars (u ".") (strip h)) in E2.
  destruct (strip_chars (u ".") (strip h)) as [|c x] eqn:Sx; [discriminate H|]. remember (c :: x) as s eqn:Es. clear Es Sx. destruct (str_eqb (lower s) (u "localhost")).
  - assert (t = []) as -> by congruence. discriminate V.
  - destruct (rsplit1 46 s) as [[base tld]|] eqn:R; [|discriminate H]. assert (t = tld) as -> by congruence. apply rsplit1_spec in R. destruct R as [R NI]. exists (a1 ++ a2), base, tld, (b2 ++ b1). repeat split.
    + rewrite E1 at 1. rewrite E2 at 1. rewrite R. change (u ".") with [46]. rewrite <- !app_assoc. cbn [app]. rewrite <- ?app_assoc. reflexivity.
    + exact V.
    + exact NI.
    + intros ->. discriminate V.
Qed.
Definition prefixes := [u "http://"; u "https://"; u "ftp://"; u "mailto:"; u "//"; u "www."].
Lemma prefix_spec cand : starts_any prefixes (lower cand) = true -> exists p, In p prefixes /\ begins_ci p cand.
Proof.
  intros H. unfold starts_any in H. apply existsb_exists in H. destruct H as (p & I & H). exists p. split; [exact I|].
  assert (K : plain_prefix p = true) by (unfold prefixes in I; cbn [In] in I; intuition (subst; reflexivity)). destruct (starts_lower_inv p cand K H) as (a & t & E & _ & Ea). exists a, t. split; assumption.
Qed.
(* the first character of a candidate is no dot, slash-free digit check: it is a digit when the host consists of digits and dots *)
Definition first_ok (c : N) : bool := negb (mem c (u ".?#<>""'()[]{}")).
Lemma first_label c : label_char c = true -> first_ok c = true.
Proof.
  intros H. unfold first_ok. apply negb_true_iff. apply Bool.not_true_is_false. intros M. apply mem_In in M. change (u ".?#<>""'()[]{}") with [46; 63; 35; 60; 62; 34; 39; 40; 41; 91; 93; 123; 125] in M. cbn [In] in M.
  repeat (destruct M as [<-|M]; [vm_compute in H; discriminate H|]). destruct M.
Qed.
Lemma first_ranges c : ((46 <? c) && (c <? 60)) || ((65 <=? c) && (c <=? 90)) || ((97 <=? c) && (c <=? 122)) || (125 <? c) = true -> first_ok c = true.
Proof.
  intros H. unfold first_ok. apply negb_true_iff. apply Bool.not_true_is_false. intros M. apply mem_In in M. change (u ".?#<>""'()[]{}") with [46; 63; 35; 60; 62; 34; 39; 40; 41; 91; 93; 123; 125] in M. cbn [In] in M. lia.
Qed.
Lemma first_alnum c : alnum_ci c = true -> first_ok c = true.
Proof. unfold alnum_ci, is_alnum_ascii, is_alpha_ascii, is_lower_ascii, is_upper_ascii, is_digit_ascii. intros H. apply first_ranges. lia. Qed.
Lemma first_decimal c : is_decimal c = true -> first_ok c = true.
Proof. intros H. apply first_label. unfold label_char, is_alnum, is_digit. rewrite H. rewrite !orb_true_r. reflexivity. Qed.
Lemma first_ci p c s : forallb (fun x => ((97 <=? x) && (x <=? 122)) || (x =? 47)) (firstn 1 p) = true -> p <> [] -> starts_ci p (c :: s) = true -> first_ok c = true.
Proof.
  destruct p as [|x p]; [intros _ H; contradiction|]. cbn [firstn forallb starts_ci]. intros X _ H. apply andb_true_iff in H. destruct H as [H _]. apply first_ranges. unfold ci, alow_c, is_upper_ascii in H. destruct ((65 <=? c) && (c <=? 90)) eqn:U; lia.
Qed.
Lemma first_prefixed p c s n : forallb (fun x => ((97 <=? x) && (x <=? 122)) || (x =? 47)) (firstn 1 p) = true -> p <> [] -> prefixed p (c :: s) = Some n -> first_ok c = true.
Proof. intros X Np. unfold prefixed. destruct (starts_ci p (c :: s)) eqn:E; [|discriminate]. intros _. exact (first_ci p c s X Np E). Qed.
Lemma first_domain c s n : domain (c :: s) = Some n -> first_ok c = true.
Proof. unfold domain, dotted_label, label. destruct (label_char c) eqn:L; [|discriminate]. intros _. exact (first_label c L). Qed.
Lemma first_candidate c s n : candidate (c :: s) = Some n -> first_ok c = true.
Proof.
  intros H. unfold candidate in H. apply first_some_in in H. cbn [In] in H. destruct H as [H|[H|[H|[H|[H|[H|[H|[H|[H|[]]]]]]]]]];
    try (eapply first_prefixed; [| |exact H]; [reflexivity|discriminate]).
  - unfold email in H. destruct (alnum_ci c) eqn:A; [exact (first_alnum c A)|discriminate H].
  - cbn [ipv4] in H. destruct (take_while is_decimal (c :: s)) as [|d t] eqn:T; [discriminate H|]. cbn [take_while] in T. destruct (is_decimal c) eqn:D; [exact (first_decimal c D)|discriminate T].
  - destruct (domain (c :: s)) as [m|] eqn:E; [|discriminate H]. exact (first_domain c s m E).
Qed.
Lemma scan_first text : forall s pre skip ok, text = pre ++ s -> Forall (fun p => exists c r, skipn (fst p) text = c :: r /\ first_ok c = true) (scan skip ok (List.length pre) s).
Proof.
  induction s as [|c s IH]; intros pre skip ok E; cbn [scan]; [constructor|].
  assert (E' : text = (pre ++ [c]) ++ s) by (rewrite <- app_assoc; exact E). assert (L' : S (List.length pre) = List.length (pre ++ [c])) by (rewrite app_length; cbn; lia).
  destruct skip as [|k]; [|rewrite L'; apply IH; exact E'].
  destruct (if ok then candidate (c :: s) else None) as [n|] eqn:C; [|rewrite L'; apply IH; exact E']. destruct ok; [|discriminate C]. constructor; [|rewrite L'; apply IH; exact E'].
  exists c, s. cbn [fst]. split; [rewrite E, skipn_app, skipn_all, Nat.sub_diag; reflexivity|exact (first_candidate c s n C)].
Qed.
Lemma shape_first text s c t start cand : first_ok c = true -> shape text s (c :: t) = Some (start, cand) -> exists r, cand = c :: r.
Proof.
  intros F. unfold first_ok in F. apply negb_true_iff in F.
  assert (F1 : mem c (u "<""'([{") = false) by (destruct (mem c (u "<""'([{")) eqn:M; [|reflexivity]; apply mem_In in M; exfalso; rewrite <- not_true_iff_false in F; apply F; apply mem_In; revert M; vm_compute; tauto).
  assert (F2 : mem c (u """'") = false) by (destruct (mem c (u """'")) eqn:M; [|reflexivity]; apply mem_In in M; exfalso; rewrite <- not_true_iff_false in F; apply F; apply mem_In; revert M; vm_compute; tauto).
  unfold shape, strip_wrapping. rewrite F1. cbn [andb]. destruct (trim_prefix (c :: t)) as [w0 E0]. destruct (trim_trailing (c :: t)) as [|c0 t0]; [discriminate|]. injection E0 as <- E0.
  remember (c :: t0) as cand0 eqn:C0.
  set (cand1 := if starts_any schemes (lower cand0) && contains (u ")[") cand0 then match find (u ")[") cand0 with Some k => trim_trailing (firstn k cand0) | None => cand0 end else cand0).
  assert (P : exists w, cand0 = cand1 ++ w).
  { unfold cand1. destruct (starts_any schemes (lower cand0) && contains (u ")[") cand0); [|exists []; symmetry; apply app_nil_r]. destruct (find (u ")[") cand0) as [k|]; [|exists []; symmetry; apply app_nil_r].
    destruct (trim_prefix (firstn k cand0)) as [w E]. exists (w ++ skipn k cand0). rewrite app_assoc, <- E. symmetry. apply firstn_skipn. }
  clearbody cand1. destruct P as [w1 E1]. destruct cand1 as [|c1 t1]; [discriminate|]. rewrite C0 in E1. injection E1 as <- E1. rewrite F2. cbn [andb]. intros H. injection H as _ <-. exists t1. reflexivity.
Qed.
(* the part of a link that names its host *)
Definition link_host (cand : str) : str := match rsplit1 64 cand with Some (_, d) => host_of d | None => host_of cand end.
Definition link_ok (cfg : config) (cand : str) : Prop :=
  (exists p, In p prefixes /\ begins_ci p cand) \/ has_tld (known_tld cfg) (link_host cand) \/ (fuzzy_ip cfg = true /\ dotted_quad (py_int false 0) (link_host cand)).
Lemma rsplit1_mem c s : (match rsplit1 c s with Some _ => true | None => false end) = mem c s.
Proof.
  induction s as [|x s IH]; [reflexivity|]. cbn [rsplit1 mem existsb]. destruct (rsplit1 c s) as [[a b]|]; cbn in IH.
  - fold (mem c s). rewrite <- IH, orb_true_r. reflexivity.
  - fold (mem c s). rewrite <- IH, orb_false_r. destruct (N.eqb_spec x c) as [->|]; [rewrite N.eqb_refl; reflexivity|]. symmetry. apply N.eqb_neq. congruence.
Qed.
Lemma checks_ok cfg c r : first_ok c = true -> check_fuzzy_ip cfg (c :: r) = VGo -> check_fuzzy cfg (c :: r) = VGo -> check_email cfg (c :: r) = VGo -> link_ok cfg (c :: r).
Proof.
  intros F Ip Fz Em. unfold link_ok, link_host. set (cand := c :: r) in *. destruct (starts_any prefixes (lower cand)) eqn:Px; [left; exact (prefix_spec cand Px)|]. right.
  unfold starts_any, prefixes in Px. cbn [existsb] in Px. apply orb_false_iff in Px. destruct Px as [P1 Px]. apply orb_false_iff in Px. destruct Px as [P2 Px]. apply orb_false_iff in Px. destruct Px as [P3 Px]. apply orb_false_iff in Px. destruct Px as [P4 Px]. apply orb_false_iff in Px. destruct Px as [P5 Px]. apply orb_false_iff in Px. destruct Px as [P6 _].
  pose proof (rsplit1_mem 64 cand) as M. unfold check_email in Em. unfold check_fuzzy in Fz. unfold check_fuzzy_ip in Ip. unfold starts_any in *. cbn [existsb] in *. rewrite P1, P2, P3, P4, ?P5, ?P6 in *. cbn [orb negb andb] in *.
  destruct (rsplit1 64 cand) as [[lo dom]|].
  - apply both_go in Em. destruct Em as [_ Em]. destruct (tld_of (host_of dom)) as [t|] eqn:T; [|discriminate Em]. apply skip_if_go in Em. apply negb_false_iff in Em. left. exact (tld_of_has cfg _ t T Em).
  - rewrite <- M in Fz. cbn [negb andb] in Fz. apply both_go in Fz. destruct Fz as [_ Fz].
    assert (Tld : match tld_of (host_of cand) with None => VSkip | Some t => skip_if (negb (valid_tld cfg t)) end = VGo -> has_tld (known_tld cfg) (host_of cand)).
    { intros Q. destruct (tld_of (host_of cand)) as [t|] eqn:T; [|discriminate Q]. apply skip_if_go in Q. apply negb_false_iff in Q. exact (tld_of_has cfg _ t T Q). }
    destruct (mem 46 (host_of cand) && str_isdigit (no_dots (host_of cand))) eqn:D; [|left; exact (Tld Fz)]. apply andb_true_iff in D. destruct D as [D1 D2].
    destruct (valid_ipv4 (host_of cand)) as [[|]|] eqn:V; [|left; exact (Tld Fz)|discriminate Fz]. right. split; [|exact (valid_ipv4_quad _ V)].
    assert (Hc : exists r', host_of cand = c :: r').
    { unfold cand, host_of. cbn [take_while]. destruct (not_tail c) eqn:Nt; [eexists; reflexivity|]. exfalso. unfold cand, host_of in D1. cbn [take_while] in D1. rewrite Nt in D1. discriminate D1. }
    destruct Hc as [r' Hc].
    assert (Dc : is_digit c = true).
    { rewrite Hc in D2. unfold no_dots, replace_char in D2. cbn [flat_map] in D2. assert (c =? 46 = false) as Q.
      { apply N.eqb_neq. intros ->. discriminate F. }
      rewrite Q in D2. cbn [app] in D2. unfold str_isdigit in D2. cbn [forallb] in D2. apply andb_true_iff in D2. exact (proj1 D2). }
    assert (M46 : mem 46 cand = true) by (apply mem_In; apply (host_incl cand); apply mem_In; exact D1).
    unfold cand in Ip at 1. rewrite Dc, M46 in Ip. cbn [andb] in Ip. rewrite D2 in Ip. apply skip_if_go in Ip. apply negb_false_iff in Ip. exact Ip.
Qed.
Lemma find_links_shape idna cfg text ms : find_links idna cfg text = Some ms -> Forall (fun l => link_ok cfg (l_text l)) ms.
Proof.
  intros H. apply (find_links_all idna candidates cfg text _ ms); [|exact H]. intros [s e] l I E.
  pose proof (candidates_good text) as G. rewrite Forall_forall in G. destruct (G _ I) as (L & _ & _). cbn [fst snd] in L.
  pose proof (scan_first text text [] O true eq_refl) as Sf. rewrite Forall_forall in Sf. destruct (Sf _ I) as (c & r & Ec & Fc). cbn [fst] in Ec.
  unfold one_candidate in E. rewrite Ec in E. assert (Q : exists k, (e - s)%nat = S k) by (exists (e - s - 1)%nat; lia). destruct Q as [k Q]. rewrite Q in E. cbn [firstn] in E.
  destruct (shape text s (c :: firstn k r)) as [[start cand]|] eqn:Sh; [|discriminate E]. destruct (shape_first _ _ _ _ _ _ Fc Sh) as [r' ->].
  destruct (both (check_before text start (c :: r')) _) eqn:V; try discriminate E. destruct (href_for (c :: r')) as [href em]. injection E as <-. cbn [l_text].
  apply both_go in V. destruct V as [_ V]. apply both_go in V. destruct V as [V1 V]. apply both_go in V. destruct V as [_ V]. apply both_go in V. destruct V as [V2 V]. apply both_go in V. destruct V as [V3 _]. exact (checks_ok cfg c r' Fc V1 V2 V3).
Qed.

(* ---- the end of a link ---- *)
Definition closed_end (s : str) : Prop := forall w c o, s = w ++ [c] -> opener c = Some o -> (cnt c s <= cnt o s)%nat.
Lemma trim_brackets_done r : match trim_brackets r with c :: _ => forall o, opener c = Some o -> (cnt c (trim_brackets r) <= cnt o (trim_brackets r))%nat | [] => True end.
Proof.
  induction r as [|c t IH]; [exact Logic.I|]. cbn [trim_brackets]. destruct (opener c) as [o|] eqn:O; [|intros o' Q; congruence].
  destruct (Nat.ltb_spec (cnt o (c :: t)) (cnt c (c :: t))) as [L|L]; [exact IH|]. intros o' Q. assert (o' = o) as -> by congruence. exact L.
Qed.
Lemma cnt_rev c s : cnt c (rev s) = cnt c s.
Proof. unfold cnt. apply (Permutation_count_occ N.eq_dec). symmetry. apply Permutation_rev. Qed.
Lemma trim_closed s : closed_end (trim_trailing s).
Proof.
  unfold closed_end, trim_trailing. set (r := trim_quotes _). intros w c o E O. pose proof (trim_brackets_done r) as D. rewrite !cnt_rev. destruct (trim_brackets r) as [|x t].
  - cbn [rev] in E. destruct w; discriminate E.
  - cbn [rev] in E. apply app_inj_tail in E. destruct E as [_ ->]. exact (D o O).
Qed.
Lemma opener_quote c o x : opener c = Some o -> mem x (u """'") = true -> x <> c /\ x <> o.
Proof.
  unfold opener. intros H M. apply mem_In in M. change (u """'") with [34; 39] in M. cbn [In] in M.
  destruct (N.eqb_spec c 41) as [->|]; [injection H as <-; lia|]. destruct (N.eqb_spec c 93) as [->|]; [injection H as <-; lia|]. destruct (N.eqb_spec c 125) as [->|]; [injection H as <-; lia|]. destruct (N.eqb_spec c 62) as [->|]; [injection H as <-; lia|discriminate H].
Qed.
Lemma shape_closed text s raw start cand : shape text s raw = Some (start, cand) -> closed_end cand.
Proof.
  unfold shape. destruct (strip_wrapping raw) as [stripped tr]. pose proof (trim_closed stripped) as C0. destruct (trim_trailing stripped) as [|c0 t0]; [discriminate|]. remember (c0 :: t0) as cand0 eqn:Ec. clear Ec.
  set (cand1 := if starts_any schemes (lower cand0) && contains (u ")[") cand0 then match find (u ")[") cand0 with Some k => trim_trailing (firstn k cand0) | None => cand0 end else cand0).
  assert (C1 : closed_end cand1).
  { unfold cand1. destruct (starts_any schemes (lower cand0) && contains (u ")[") cand0); [|exact C0]. destruct (find (u ")[") cand0); [apply trim_closed|exact C0]. }
  clearbody cand1. destruct cand1 as [|c t]; [discriminate|]. destruct (mem c (u """'") && match char_at text (start) with Some x => x =? c | None => false end) eqn:Q0.
  all: destruct (mem c (u """'") && match char_at text (s + tr) with Some x => x =? c | None => false end) eqn:Q.
  all: try (destruct t as [|d t]; [discriminate|]); intros H; injection H as <- <-; try exact C1.
  all: intros w x o E O; pose proof (C1 (c :: w) x o (f_equal (cons c) E) O) as K; apply andb_true_iff in Q; destruct Q as [Q _]; destruct (opener_quote x o c O Q) as [N1 N2]; unfold cnt in *; rewrite (count_occ_cons_neq N.eq_dec (d :: t) N1), (count_occ_cons_neq N.eq_dec (d :: t) N2) in K; exact K.
Qed.
Lemma find_links_closed idna cands cfg text ms : find_links_by idna cands cfg text = Some ms -> Forall (fun l => closed_end (l_text l)) ms.
Proof.
  intros H. apply (find_links_all idna cands cfg text _ ms); [|exact H]. intros [s e] l I E. unfold one_candidate in E. destruct (shape text s _) as [[start cand]|] eqn:Sh; [|discriminate E].
  destruct (both _ _); try discriminate E. destruct (href_for cand). injection E as <-. cbn [l_text]. exact (shape_closed _ _ _ _ _ Sh).
Qed.
(* ---- the href is the text ---- *)
Lemma find_links_href idna cands cfg text ms : find_links_by idna cands cfg text = Some ms -> Forall (fun l => l_href l = punycode_href idna (fst (href_for (l_text l))) /\ l_email l = snd (href_for (l_text l))) ms.
Proof.
  intros H. apply (find_links_all idna cands cfg text _ ms); [|exact H]. intros [s e] l I E. unfold one_candidate in E. destruct (shape text s _) as [[start cand]|] eqn:Sh; [|discriminate E].
  destruct (both _ _); try discriminate E. destruct (href_for cand) as [h em] eqn:Hf. injection E as <-. cbn [l_text l_href l_email]. rewrite Hf. split; reflexivity.
Qed.
Lemma rsplit1_None c s : ~ In c s -> rsplit1 c s = None.
Proof.
  intros H. pose proof (rsplit1_mem c s) as M. destruct (rsplit1 c s); [|reflexivity]. exfalso. apply H. apply mem_In. symmetry. exact M.
Qed.
Lemma find_char_absent c s : ~ In c s -> find_char c s = None.
Proof.
  induction s as [|x s IH]; intros H; [reflexivity|]. cbn [find_char]. destruct (N.eqb_spec x c) as [->|]; [exfalso; apply H; left; reflexivity|]. rewrite IH; [reflexivity|]. intros Q. apply H. right. exact Q.
Qed.
Definition idna_plain (idna : str -> option str) : Prop := forall h, idna h = None \/ idna h = Some h.
Lemma punycode_same idna p a rest : idna_plain idna -> In p [u "http://"; u "https://"; u "ftp://"; u "//"] -> alow a = p -> ~ In 64 (host_of rest) -> ~ In 58 (host_of rest) -> punycode_href idna (a ++ rest) = a ++ rest.
Proof.
  intros ID I E N1 N2. unfold punycode_href. destruct (starts (u "mailto:") (lower (a ++ rest))) eqn:M; [reflexivity|].
  set (n := if starts (u "http://") (lower (a ++ rest)) then 7%nat else if starts (u "https://") (lower (a ++ rest)) then 8%nat else if starts (u "ftp://") (lower (a ++ rest)) then 6%nat else if starts (u "//") (lower (a ++ rest)) then 2%nat else O).
  assert (n = List.length a) as ->.
  { assert (La : List.length a = List.length p) by (rewrite <- E; unfold alow; symmetry; apply map_length). rewrite La. unfold n.
    assert (A : is_ascii a = true) by (apply (alow_ascii a p E); cbn [In] in I; destruct I as [<-|[<-|[<-|[<-|[]]]]]; reflexivity).
    rewrite lower_app, (lower_ascii a A), E. cbn [In] in I. destruct I as [<-|[<-|[<-|[<-|[]]]]]; reflexivity. }
  rewrite firstn_app, Nat.sub_diag, firstn_all. cbn [firstn]. rewrite app_nil_r. rewrite skipn_app, skipn_all, Nat.sub_diag. cbn [app skipn].
  rewrite (rsplit1_None _ _ N1). destruct (starts (u "[") (host_of rest)); [reflexivity|]. unfold split1. rewrite (find_char_absent _ _ N2). unfold punycode_host.
  assert (R : match idna (host_of rest) with Some h => h | None => host_of rest end = host_of rest) by (destruct (ID (host_of rest)) as [Q | Q]; rewrite Q; reflexivity). rewrite R. f_equal. symmetry. apply drop_while_app.
Qed.
(* ---- the authority of a link with a scheme ---- *)
Lemma str_gt_value : forall a b x y, Forall (fun c => 48 <= c <= 57) a -> Forall (fun c => 48 <= c <= 57) b -> List.length a = List.length b -> str_gt a b = false -> x <= y ->
  fold_left (fun a c => a * 10 + (c - 48)) a x <= fold_left (fun a c => a * 10 + (c - 48)) b y.
Proof.
  assert (M : forall a b x y, Forall (fun c => 48 <= c <= 57) a -> Forall (fun c => 48 <= c <= 57) b -> List.length a = List.length b -> x < y -> fold_left (fun a c => a * 10 + (c - 48)) a x < fold_left (fun a c => a * 10 + (c - 48)) b y).
  { induction a as [|p a IH]; intros [|q b] x y A B L X; cbn [List.length] in L; try discriminate L; [exact X|]. apply Forall_cons_iff in A. apply Forall_cons_iff in B. cbn [fold_left]. apply IH; [tauto|tauto|lia|lia]. }
  induction a as [|p a IH]; intros [|q b] x y A B L G X; cbn [List.length] in L; try discriminate L; [exact X|]. pose proof A as A0. pose proof B as B0. apply Forall_cons_iff in A. apply Forall_cons_iff in B. cbn [fold_left str_gt] in *.
  destruct (N.eqb_spec p q) as [->|Ne]; [apply IH; [tauto|tauto|lia|exact G|lia]|]. apply N.lt_le_incl. apply M; [tauto|tauto|lia|lia].
Qed.
Lemma value_bound ds k : Forall (fun c => 48 <= c <= 57) ds -> (List.length ds <= k)%nat -> forall a, fold_left (fun a c => a * 10 + (c - 48)) ds a < (a + 1) * 10 ^ N.of_nat k.
Proof.
  revert ds. induction k as [|k IH]; intros [|c ds] F L a; cbn [fold_left List.length] in *; try lia.
  - pose proof (N.pow_nonzero 10 (N.of_nat (S k)) ltac:(lia)). nia.
  - apply Forall_cons_iff in F. destruct F as [Fc F]. specialize (IH ds F ltac:(lia) (a * 10 + (c - 48))). rewrite Nat2N.inj_succ, N.pow_succ_r'. nia.
Qed.
Lemma is_decimal_ascii c : is_ascii_char c = true -> is_decimal c = is_digit_ascii c.
Proof.
  unfold is_ascii_char, is_digit_ascii. intros H.
  assert (G : forallb (fun c => Bool.eqb (is_decimal c) ((48 <=? c) && (c <=? 57))) (map N.of_nat (seq 0 128)) = true) by (vm_compute; reflexivity).
  rewrite forallb_forall in G. apply Bool.eqb_prop. apply G. apply in_map_iff. exists (N.to_nat c). split; [lia|]. apply in_seq. lia.
Qed.
Lemma good_port port : bad_port port = false -> Forall (fun c => 48 <= c <= 57) port /\ (List.length port <= 5)%nat /\ digits_value port <= 65535.
Proof.
  intros H. destruct port as [|c t] eqn:E; [split; [constructor|split; [cbn; lia|vm_compute; discriminate]]|]. unfold bad_port in H. rewrite <- E in *. apply orb_false_iff in H. destruct H as [H H4]. apply orb_false_iff in H. destruct H as [H H3]. apply orb_false_iff in H. destruct H as [H1 H2].
  apply negb_false_iff in H1, H2. assert (D : Forall (fun c => 48 <= c <= 57) port).
  { rewrite Forall_forall. intros x I. unfold is_ascii in H1. rewrite forallb_forall in H1. specialize (H1 x I). unfold str_isdecimal in H2. rewrite E in H2. rewrite <- E in H2. rewrite forallb_forall in H2. specialize (H2 x I). rewrite is_decimal_ascii in H2 by exact H1. unfold is_digit_ascii in H2. lia. }
  split; [exact D|]. split; [lia|]. destruct (Nat.eqb_spec (List.length port) 5) as [L|L].
  - cbn [andb] in H4. change 65535 with (digits_value (u "65535")). apply str_gt_value; [exact D| |exact L|exact H4|lia]. change (u "65535") with [54; 53; 53; 51; 53]. repeat constructor; lia.
  - pose proof (value_bound port 4 D ltac:(lia) 0) as B. unfold digits_value. change ((0 + 1) * 10 ^ N.of_nat 4) with 10000 in B. lia.
Qed.
Lemma ends_with_spec c w x : ends_with c (w ++ [x]) = (x =? c).
Proof. unfold ends_with. rewrite rev_app_distr. reflexivity. Qed.
Lemma find_first c n b rest : ~ In c b -> find (c :: n) (b ++ c :: n ++ rest) = Some (List.length b).
Proof.
  induction b as [|x b IH]; intros H.
  - cbn [app]. assert (Q : starts (c :: n) (c :: n ++ rest) = true) by (apply (StrFacts.starts_app (c :: n) rest)). cbn [find]. rewrite Q. reflexivity.
  - cbn [app find]. assert (Q : starts (c :: n) (x :: b ++ c :: n ++ rest) = false) by (cbn [starts]; replace (c =? x) with false; [reflexivity|]; symmetry; apply N.eqb_neq; intros ->; apply H; left; reflexivity). rewrite Q, IH; [reflexivity|]. intros I. apply H. right. exact I.
Qed.
Lemma rest_after_scheme p a rest : In p schemes -> alow a = p -> exists k, find (u "://") (a ++ rest) = Some k /\ skipn (k + 3) (a ++ rest) = rest.
Proof.
  intros I E. assert (P : exists b, p = b ++ u "://" /\ ~ In 58 b).
  { unfold schemes in I. cbn [In] in I. destruct I as [<-|[<-|[<-|[]]]]; [exists (u "http")|exists (u "https")|exists (u "ftp")]; (split; [reflexivity|vm_compute; intuition discriminate]). }
  destruct P as (b & -> & Nb). unfold alow in E. apply map_eq_app in E. destruct E as (a1 & a2 & -> & E1 & E2).
  assert (a2 = u "://") as ->.
  { change (u "://") with [58; 47; 47] in *. destruct a2 as [|x [|y [|z [|w a2]]]]; try discriminate E2. injection E2 as X Y Z. unfold alow_c, is_upper_ascii in *. repeat match goal with H : (if ?b then _ else _) = _ |- _ => destruct b eqn:?; [lia|] end. congruence. }
  exists (List.length a1). split.
  - rewrite <- app_assoc. change (u "://" ++ rest) with (58 :: [47; 47] ++ rest). change (u "://") with (58 :: [47; 47]). apply find_first. intros Q. apply Nb. rewrite <- E1. apply in_map_iff. exists 58. split; [reflexivity|exact Q].
  - replace (List.length a1 + 3)%nat with (List.length (a1 ++ u "://")) by (rewrite app_length; reflexivity). rewrite skipn_app, skipn_all, Nat.sub_diag. reflexivity.
Qed.
Lemma check_url_good p a rest : In p schemes -> alow a = p -> check_url (a ++ rest) = VGo -> good_authority (host_of rest) \/ exists w r, host_of rest = w ++ u "[" ++ r.
Proof.
  intros I E H. unfold check_url in H. destruct (rest_after_scheme p a rest I E) as (k & F & Sk).
  assert (St : starts_any schemes (lower (a ++ rest)) = true).
  { apply existsb_exists. exists p. split; [exact I|]. apply (starts_lower_app a rest p E). unfold schemes in I. cbn [In] in I. destruct I as [<-|[<-|[<-|[]]]]; reflexivity. }
  rewrite St, F, Sk in H. set (hp := host_of rest) in *. apply both_go in H. destruct H as [_ H].
  set (h2 := match rsplit1 64 hp with Some (_, b) => b | None => hp end) in *.
  assert (U : exists user, hp = user ++ h2 /\ (user = [] \/ exists w, user = w ++ u "@")).
  { unfold h2. destruct (rsplit1 64 hp) as [[x y]|] eqn:R; [|exists []; split; [reflexivity|left; reflexivity]]. apply rsplit1_spec in R. destruct R as [R _]. exists (x ++ u "@"). split; [rewrite R at 1; rewrite <- app_assoc; reflexivity|right; exists x; reflexivity]. }
  destruct U as (user & U1 & U2). clearbody h2. clearbody hp.
  destruct (starts (u "[") h2) eqn:Br.
  { apply starts_spec in Br. destruct Br as [r ->]. right. exists user, r. exact U1. }
  left. destruct (match split1 58 h2 with Some (x, y) => (x, y) | None => (h2, []) end) as [host port] eqn:HP.
  assert (P : (h2 = host /\ port = []) \/ h2 = host ++ u ":" ++ port).
  { destruct (split1 58 h2) as [[x y]|] eqn:SP; injection HP as <- <-; [right; exact (split1_spec _ _ _ _ SP)|left; split; reflexivity]. }
  apply both_go in H. destruct H as [H1 H]. apply both_go in H. destruct H as [H2 H]. apply both_go in H. destruct H as [H3 _]. apply skip_if_go in H1, H2, H3.
  apply orb_false_iff in H2. destruct H2 as [H2 H2d]. apply orb_false_iff in H2. destruct H2 as [H2 H2c]. apply orb_false_iff in H2. destruct H2 as [H2a H2b].
  assert (G : exists port', h2 = host ++ port' /\ (port' = [] \/ exists ds, port' = u ":" ++ ds /\ Forall (fun c => 48 <= c <= 57) ds /\ (List.length ds <= 5)%nat /\ digits_value ds <= 65535)).
  { destruct P as [[-> _] | ->]; [exists []; split; [symmetry; apply app_nil_r|left; reflexivity]|]. exists (u ":" ++ port). split; [reflexivity|]. right. exists port. split; [reflexivity|]. exact (good_port port H1). }
  destruct G as (port' & G1 & G2). exists user, host, port'. split; [rewrite U1, G1; reflexivity|]. split; [exact U2|]. split; [intros ->; discriminate H2a|].
  split; [intros M; apply mem_In in M; congruence|]. split; [|split; [|exact G2]].
  - intros c r ->. lia.
  - intros c w ->. rewrite !ends_with_spec in *. lia.
Qed.
Lemma find_links_authority idna cands cfg text ms : find_links_by idna cands cfg text = Some ms -> Forall (fun l => forall p a rest, In p schemes -> l_text l = a ++ rest -> alow a = p -> good_authority (host_of rest) \/ exists w r, host_of rest = w ++ u "[" ++ r) ms.
Proof.
  intros H. apply (find_links_all idna cands cfg text _ ms); [|exact H]. intros [s e] l I E. unfold one_candidate in E. destruct (shape text s _) as [[start cand]|] eqn:Sh; [|discriminate E].
  destruct (both (check_before text start cand) _) eqn:V; try discriminate E. destruct (href_for cand). injection E as <-. cbn [l_text]. intros p a rest Ip -> Ea. do 5 (apply both_go in V; destruct V as [_ V]). exact (check_url_good p a rest Ip Ea V).
Qed.
