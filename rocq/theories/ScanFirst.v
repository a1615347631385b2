(* raw text and scripts, continued: the search loops of the scanner find the first place with a property *)
From Coq Require Import Lia ZifyBool ZifyN ZifyNat.
From Verif Require Import Str StrFacts RawTextSpec ScanModel ScanRawProofs.
Open Scope list_scope. Open Scope N_scope.

Fixpoint first (P : str -> bool) (s : str) : option nat :=
  match s with [] => None | _ :: t => if P s then Some O else option_map S (first P t) end.
Lemma first_Some P : forall s i, first P s = Some i -> (i < List.length s)%nat /\ P (skipn i s) = true /\ forall j, (j < i)%nat -> P (skipn j s) = false.
Proof.
  induction s as [|c t IH]; intros i H; [discriminate H|]. cbn [first] in H. destruct (P (c :: t)) eqn:E.
  - assert (i = O) as -> by congruence. cbn [List.length skipn]. split; [lia|]. split; [exact E|]. intros j J. lia.
  - destruct (first P t) as [k|] eqn:F; [|discriminate H]. assert (i = S k) as -> by (cbn [option_map] in H; congruence). destruct (IH k eq_refl) as (A & B & C). cbn [List.length skipn]. split; [lia|]. split; [exact B|]. intros [|j] J; [exact E|]. cbn [skipn]. apply C. lia.
Qed.
Lemma first_None P : forall s, first P s = None -> forall j, (j < List.length s)%nat -> P (skipn j s) = false.
Proof.
  induction s as [|c t IH]; intros H j J; [cbn in J; lia|]. cbn [first] in H. destruct (P (c :: t)) eqn:E; [discriminate H|]. destruct (first P t) eqn:F; [discriminate H|]. destruct j as [|j]; [exact E|]. cbn [skipn]. apply IH; [reflexivity|]. cbn [List.length] in J. lia.
Qed.
Lemma first_ext P Q : (forall s, P s = Q s) -> forall s, first P s = first Q s.
Proof. intros H. induction s as [|c t IH]; [reflexivity|]. cbn [first]. rewrite H, IH. reflexivity. Qed.
Lemma find_is_first p : p <> [] -> forall s, find p s = first (starts p) s.
Proof. intros Np. induction s as [|c t IH]; [destruct p; [congruence|reflexivity]|]. cbn [find first]. rewrite IH. reflexivity. Qed.

(* ---------- the needle, in any case ---------- *)
Definition low_ascii (p : str) : bool := forallb (fun c => (c <? 128) && negb (is_upper_ascii c)) p.
Lemma strip_some p : forall s r, strip_ci p s = Some r -> (List.length p <= List.length s)%nat /\ r = skipn (List.length p) s /\ alow (firstn (List.length p) s) = p.
Proof.
  induction p as [|x p IH]; intros s r H; [assert (r = s) as -> by (cbn [strip_ci] in H; congruence); repeat split; cbn [List.length]; lia|]. destruct s as [|y s]; [discriminate H|]. cbn [strip_ci] in H. destruct (N.eqb_spec (alow_c y) x) as [E|E]; [|discriminate H]. destruct (IH s r H) as (A & B & C). cbn [List.length skipn firstn alow map]. unfold alow in C. rewrite C, E. repeat split; [lia|exact B].
Qed.
Lemma strip_of p : forall s, (List.length p <= List.length s)%nat -> alow (firstn (List.length p) s) = p -> strip_ci p s = Some (skipn (List.length p) s).
Proof.
  induction p as [|x p IH]; intros s L E; [reflexivity|]. destruct s as [|y s]; [cbn in L; lia|]. cbn [List.length firstn alow map] in *. injection E as E1 E2. cbn [strip_ci skipn]. rewrite E1, N.eqb_refl. apply IH; [lia|exact E2].
Qed.
Definition hits (p s : str) : bool := match strip_ci p s with Some _ => true | None => false end.
Lemma alow_small c : alow_c c < 128 -> c < 128.
Proof. unfold alow_c. destruct (is_upper_ascii c); lia. Qed.
Lemma low_alow p : low_ascii p = true -> alow p = p.
Proof. unfold low_ascii. induction p as [|c p IH]; intros H; [reflexivity|]. cbn [forallb] in H. apply andb_true_iff in H as [Hc Hp]. cbn [alow map]. unfold alow in IH. rewrite (IH Hp). unfold alow_c. destruct (is_upper_ascii c); [lia|reflexivity]. Qed.
Lemma low_is_ascii p : low_ascii p = true -> is_ascii p = true.
Proof. unfold low_ascii, is_ascii. rewrite !forallb_forall. intros H c I. specialize (H c I). unfold is_ascii_char. lia. Qed.
Lemma startswith_hits p s : low_ascii p = true -> ascii_startswith p s = hits p s.
Proof.
  intros Lp. unfold ascii_startswith, hits. assert (Ap := low_alow p Lp). assert (Ip := low_is_ascii p Lp). destruct (strip_ci p s) as [r|] eqn:E.
  - destruct (strip_some _ _ _ E) as (A & _ & C). assert (Ic : is_ascii (firstn (List.length p) s) = true).
    { unfold is_ascii in *. rewrite forallb_forall in *. intros c I. unfold is_ascii_char. apply N.ltb_lt. apply alow_small. assert (K : In (alow_c c) p) by (rewrite <- C; apply in_map; exact I). specialize (Ip _ K). unfold is_ascii_char in Ip. lia. }
    cbv zeta. rewrite Ic, (lower_ascii _ Ic), (lower_ascii _ Ip), C, Ap, str_eqb_refl, orb_true_r, andb_true_r. apply Nat.leb_le. exact A.
  - destruct (Nat.leb_spec (List.length p) (List.length s)) as [L|L]; [|reflexivity]. cbv zeta. cbn [andb].
    assert (Na : alow (firstn (List.length p) s) <> p) by (intros K; rewrite (strip_of p s L K) in E; discriminate E). apply orb_false_iff. split.
    + apply not_true_is_false. intros K. apply str_eqb_eq in K. apply Na. rewrite K. exact Ap.
    + destruct (is_ascii (firstn (List.length p) s)) eqn:Ic; [|reflexivity]. rewrite (lower_ascii _ Ic), (lower_ascii _ Ip), Ap. cbn [andb]. apply not_true_is_false. intros K. apply str_eqb_eq in K. exact (Na K).
Qed.
Lemma hits_len p s : hits p s = true -> (List.length p <= List.length s)%nat.
Proof. unfold hits. destruct (strip_ci p s) as [r|] eqn:E; [|discriminate]. intros _. apply (strip_some _ _ _ E). Qed.
Lemma first_short p : forall s, (List.length s < List.length p)%nat -> first (hits p) s = None.
Proof.
  induction s as [|c t IH]; intros L; [reflexivity|]. cbn [first]. destruct (hits p (c :: t)) eqn:E; [apply hits_len in E; lia|]. cbn [List.length] in L. rewrite IH by lia. reflexivity.
Qed.
Lemma ascii_find_first p s : low_ascii p = true -> ascii_find p s = first (hits p) s.
Proof.
  intros Lp. induction s as [|c t IH]; [reflexivity|]. cbn [ascii_find]. rewrite IH. destruct (Nat.ltb_spec (List.length (c :: t)) (List.length p)) as [L|L]; [rewrite first_short by exact L; reflexivity|]. rewrite startswith_hits by exact Lp. reflexivity.
Qed.

(* ---------- the lookahead machine passes over places where nothing happens ---------- *)
Section Pass.
Variable name : str.
Lemma lk_pass m n : forall s, (n <= List.length s)%nat -> (forall j, (j < n)%nat -> decide name m (skipn j s) = Go) -> lk name m O s = option_map (fun i => (n + i)%nat) (lk name m O (skipn n s)).
Proof.
  induction n as [|n IH]; intros s L H; [cbn [skipn]; destruct (lk name m 0 s); reflexivity|]. destruct s as [|c t]; [cbn in L; lia|]. cbn [List.length] in L. rewrite lk_go by (apply (H O); lia). cbn [skipn]. rewrite (IH t) by (try lia; intros j J; apply (H (S j)); lia). destruct (lk name m 0 (skipn n t)); reflexivity.
Qed.
Lemma lk_all m : forall s, (forall j, (j < List.length s)%nat -> decide name m (skipn j s) = Go) -> lk name m O s = None.
Proof. intros s H. rewrite (lk_pass m (List.length s) s) by (try lia; exact H). rewrite skipn_all. reflexivity. Qed.
Lemma lk_stop m s : decide name m s = Stop -> s <> [] -> lk name m O s = Some O.
Proof. intros H Ns. destruct s as [|c t]; [congruence|]. cbn [lk]. rewrite H. reflexivity. Qed.
Lemma lk_jumps m m' n s : decide name m s = Jump m' n -> (n < List.length s)%nat -> lk name m O s = option_map (fun i => (S n + i)%nat) (lk name m' O (skipn (S n) s)).
Proof.
  intros H L. destruct s as [|c t]; [cbn in L; lia|]. cbn [List.length] in L. rewrite (lk_jump _ _ _ _ _ _ H). cbn [skipn]. pose proof (lk_skip name m' (firstn n t) (skipn n t)) as K. rewrite firstn_skipn, firstn_length_le in K by lia. rewrite K. destruct (lk name m' 0 (skipn n t)); reflexivity.
Qed.
End Pass.
Lemma at_tag_hits p s : at_tag p s = true -> hits p s = true.
Proof. unfold at_tag, hits. destruct (strip_ci p s); [reflexivity|discriminate]. Qed.
Lemma at_tag_rest p s : at_tag p s = hits p s && match skipn (List.length p) s with c :: _ => ends_name c | [] => false end.
Proof. unfold at_tag, hits. destruct (strip_ci p s) as [r|] eqn:E; [|reflexivity]. destruct (strip_some _ _ _ E) as (_ & -> & _). reflexivity. Qed.
Lemma skipn_sk {A} a : forall b (l : list A), skipn a (skipn b l) = skipn (b + a) l.
Proof. induction b as [|b IH]; intros l; [reflexivity|]. destruct l as [|x l]; [destruct a; reflexivity|]. cbn [skipn Nat.add]. apply IH. Qed.
(* inside an occurrence of the needle there is no second one *)
Lemma no_inner p q s j : hits (60 :: p) s = true -> ~ In 60 p -> (0 < j <= List.length p)%nat -> hits (60 :: q) (skipn j s) = false.
Proof.
  intros H N60 J. unfold hits in H. destruct (strip_ci (60 :: p) s) as [r|] eqn:E; [|discriminate H]. destruct (strip_some _ _ _ E) as (A & _ & C). clear H E. destruct j as [|j]; [lia|]. destruct s as [|c s]; [cbn in A; lia|]. cbn [List.length firstn alow map skipn] in *. injection C as C1 C2.
  destruct (skipn j s) as [|x t] eqn:K; [reflexivity|]. unfold hits. cbn [strip_ci]. destruct (N.eqb_spec (alow_c x) 60) as [Q|Q]; [|reflexivity]. exfalso. apply N60. fold (alow (firstn (List.length p) s)) in C2. rewrite <- C2, <- Q. unfold alow. apply in_map.
  assert (F : firstn (List.length p) s = firstn j s ++ firstn (List.length p - j) (x :: t)).
  { rewrite <- K. rewrite <- (firstn_skipn j s) at 1. rewrite firstn_app, firstn_firstn, firstn_length_le by lia. replace (Nat.min (List.length p) j) with j by lia. reflexivity. }
  rewrite F. apply in_or_app. right. destruct (List.length p - j)%nat eqn:Z; [lia|]. left. reflexivity.
Qed.

(* ---------- find_rawtext_end_tag: the first end tag ---------- *)
Lemma mem_stop c : mem c TAG_END_NAME_STOP = ends_name c.
Proof. unfold TAG_END_NAME_STOP, SPACE, ends_name, mem. cbn [app existsb]. lia. Qed.
Definition tag_after (s : str) (i : nat) : nat := match find_tag_end None (skipn i s) with None => List.length s | Some e => (i + e + 1)%nat end.
Lemma low_char c : is_lower_ascii c = true -> (c <? 128) && negb (is_upper_ascii c) = true /\ c <> 60.
Proof. unfold is_lower_ascii, is_upper_ascii. lia. Qed.
Section Raw.
Variable name : str.
Hypothesis name_ok : forallb is_lower_ascii name = true.
Lemma tag_low : low_ascii (tag name) = true.
Proof. unfold low_ascii, tag. apply forallb_forall. rewrite forallb_forall in name_ok. intros c [<-|[<-|I]]; [reflexivity|reflexivity|]. apply low_char. apply name_ok. exact I. Qed.
Lemma tag_no_lt : ~ In 60 (47 :: name).
Proof. intros [H|H]; [discriminate H|]. rewrite forallb_forall in name_ok. destruct (low_char 60 (name_ok _ H)) as [_ K]. exact (K eq_refl). Qed.
Definition found (s : str) : option (nat * nat) := match lk name MRaw O s with None => None | Some i => Some (i, tag_after s (i + List.length (tag name))%nat) end.
Lemma tag_end_len q : forall s e, find_tag_end q s = Some e -> (e < List.length s)%nat.
Proof.
  intros s; revert q; induction s as [|c t IH]; intros q e H; [discriminate H|]. cbn [find_tag_end] in H. destruct q as [q|].
  - destruct (find_tag_end _ t) as [k|] eqn:E; [|discriminate H]. assert (e = S k) as -> by (cbn in H; congruence). apply IH in E. cbn [List.length]. lia.
  - destruct ((c =? 34) || (c =? 39)); [|destruct (c =? 62); [assert (e = O) as -> by congruence; cbn [List.length]; lia|]];
      (destruct (find_tag_end _ t) as [k|] eqn:E in H; [|discriminate H]; assert (e = S k) as -> by (cbn in H; congruence); apply IH in E; cbn [List.length]; lia).
Qed.
Lemma rawtext_go fuel : forall s, (List.length s < fuel)%nat -> find_rawtext_go fuel (tag name) s = found s.
Proof.
  induction fuel as [|fuel IH]; intros s L; [lia|]. cbn [find_rawtext_go]. rewrite (ascii_find_first _ _ tag_low). destruct (first (hits (tag name)) s) as [close|] eqn:E.
  - destruct (first_Some _ _ _ E) as (Lc & Hc & Before). pose proof (hits_len _ _ Hc) as Lh. rewrite skipn_length in Lh.
    assert (P : lk name MRaw O s = option_map (fun i => (close + i)%nat) (lk name MRaw O (skipn close s))).
    { apply lk_pass; [lia|]. intros j J. cbn [decide]. destruct (at_tag (tag name) (skipn j s)) eqn:K; [|reflexivity]. apply at_tag_hits in K. rewrite (Before j J) in K. discriminate K. }
    assert (Again : match skipn (close + List.length (tag name)) s with c :: _ => ends_name c | [] => false end = false ->
      option_map (fun p => (close + List.length (tag name) + fst p, close + List.length (tag name) + snd p)%nat) (find_rawtext_go fuel (tag name) (skipn (close + List.length (tag name)) s)) = found s).
    { intros Q. rewrite IH by (rewrite skipn_length; unfold tag in *; cbn [List.length] in *; lia). unfold found. rewrite P. rewrite (lk_pass name MRaw (List.length (tag name)) (skipn close s)).
      - rewrite skipn_sk. destruct (lk name MRaw 0 (skipn (close + List.length (tag name)) s)) as [i|]; [|reflexivity]. cbn [option_map fst snd]. f_equal. f_equal; [lia|]. unfold tag_after. rewrite skipn_sk. replace (close + List.length (tag name) + (i + List.length (tag name)))%nat with (close + (List.length (tag name) + i) + List.length (tag name))%nat by lia.
        destruct (find_tag_end None _); [lia|]. rewrite skipn_length. lia.
      - rewrite skipn_length. lia.
      - intros j J. cbn [decide]. destruct (at_tag (tag name) (skipn j (skipn close s))) eqn:K; [|reflexivity]. exfalso. destruct j as [|j].
        + cbn [skipn] in K. rewrite at_tag_rest, skipn_sk in K. rewrite Q, andb_false_r in K. discriminate K.
        + apply at_tag_hits in K. unfold tag in K. rewrite (no_inner (47 :: name) (47 :: name) (skipn close s) (S j)) in K; [discriminate K|exact Hc|exact tag_no_lt|]. unfold tag in J. cbn [List.length] in *. lia. }
    cbv zeta. destruct (skipn (close + List.length (tag name)) s) as [|c rest] eqn:R; [apply Again; reflexivity|]. rewrite mem_stop. destruct (ends_name c) eqn:Ec; cbn [negb]; [|apply Again; reflexivity].
    assert (St : lk name MRaw 0 (skipn close s) = Some O).
    { apply lk_stop; [|intros K; rewrite K in Hc; discriminate Hc]. cbn [decide]. rewrite at_tag_rest, Hc, skipn_sk, R, Ec. reflexivity. }
    unfold found. rewrite P, St. cbn [option_map]. rewrite Nat.add_0_r. unfold tag_after. rewrite R. destruct (find_tag_end None (c :: rest)); reflexivity.
  - unfold found. rewrite lk_all; [reflexivity|]. intros j J. cbn [decide]. destruct (at_tag (tag name) (skipn j s)) eqn:K; [|reflexivity]. apply at_tag_hits in K. rewrite (first_None _ _ E j J) in K. discriminate K.
Qed.
Lemma rawtext_first s : find_rawtext_end_tag name s = found s.
Proof. unfold find_rawtext_end_tag. apply rawtext_go. lia. Qed.
Lemma lk_raw_spec s i : lk name MRaw O s = Some i -> (i < List.length s)%nat /\ at_tag (tag name) (skipn i s) = true /\ forall j, (j < i)%nat -> at_tag (tag name) (skipn j s) = false.
Proof.
  revert i; induction s as [|c t IH]; intros i H; [discriminate H|]. cbn [lk] in H. cbn [decide] in H. destruct (at_tag (tag name) (c :: t)) eqn:E.
  - assert (i = O) as -> by congruence. cbn [List.length skipn]. split; [lia|]. split; [exact E|]. intros j J. lia.
  - destruct (lk name MRaw 0 t) as [k|] eqn:F; [|discriminate H]. assert (i = S k) as -> by (cbn [option_map] in H; congruence). destruct (IH k eq_refl) as (A & B & C). cbn [List.length skipn]. split; [lia|]. split; [exact B|]. intros [|j] J; [exact E|]. apply C. lia.
Qed.
Lemma lk_raw_none s : lk name MRaw O s = None -> forall j, (j < List.length s)%nat -> at_tag (tag name) (skipn j s) = false.
Proof.
  induction s as [|c t IH]; intros H j J; [cbn in J; lia|]. cbn [lk decide] in H. destruct (at_tag (tag name) (c :: t)) eqn:E; [discriminate H|]. destruct (lk name MRaw 0 t) eqn:F; [discriminate H|]. destruct j as [|j]; [exact E|]. apply IH; [reflexivity|]. cbn [List.length] in J. lia.
Qed.
End Raw.
