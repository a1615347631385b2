(* scripts, continued: find_script_end_tag against the lookahead machine *)
From Coq Require Import Lia ZifyBool ZifyN ZifyNat.
From Verif Require Import Str StrFacts RawTextSpec ScanModel ScanRawProofs ScanScriptProofs ScanFirst.
Open Scope list_scope. Open Scope N_scope.

(* no quote, no <, no - up to the next > *)
Definition plain_tail (t : str) : Prop := forall c, In c (take_while (fun x => negb (x =? 62)) t) -> c <> 34 /\ c <> 39 /\ c <> 60 /\ c <> 45.
Notation close_at s := (at_tag (u "</script") s).
Notation open_at s := (at_tag (u "<script") s).
Definition nice (m : mode) (s : str) : Prop :=
  match m with
  | MDbl => forall j, close_at (skipn j s) = true -> plain_tail (skipn (j + 8) s)
  | MEsc => forall k j, (k < j)%nat -> open_at (skipn k s) = true -> close_at (skipn j s) = true -> plain_tail (skipn (j + 8) s)
  | _ => forall i k j, (i < k < j)%nat -> starts (u "<!--") (skipn i s) = true -> open_at (skipn k s) = true -> close_at (skipn j s) = true -> plain_tail (skipn (j + 8) s)
  end.
Lemma tail_shift n j s : plain_tail (skipn (n + j + 8) s) -> plain_tail (skipn (j + 8) (skipn n s)).
Proof. intros H. rewrite skipn_sk. replace (n + (j + 8))%nat with (n + j + 8)%nat by lia. exact H. Qed.
Lemma nice_dbl n s : nice MDbl s -> nice MDbl (skipn n s).
Proof. intros H j J. rewrite skipn_sk in J. apply tail_shift. apply H. exact J. Qed.
Lemma nice_dbl_esc s : nice MDbl s -> nice MEsc s.
Proof. intros H k j _ _ J. apply H. exact J. Qed.
Lemma nice_esc_data n s : nice MEsc s -> nice MData (skipn n s).
Proof. intros H i k j Q _ K J. rewrite skipn_sk in K, J. apply tail_shift. apply (H (n + k)%nat); [lia|exact K|exact J]. Qed.
Lemma nice_data_esc i s : nice MData s -> starts (u "<!--") (skipn i s) = true -> nice MEsc (skipn (i + 2) s).
Proof. intros H Hi k j Q K J. rewrite skipn_sk in K, J. apply tail_shift. apply (H i (i + 2 + k)%nat); [lia|exact Hi|exact K|exact J]. Qed.
Lemma nice_esc_dbl k s : nice MEsc s -> open_at (skipn k s) = true -> nice MDbl (skipn (k + 7) s).
Proof. intros H Hk j J. rewrite skipn_sk in J. apply tail_shift. apply (H k); [lia|exact Hk|exact J]. Qed.

(* ---------- bounded searches ---------- *)
Lemma starts_firstn p : forall k s, starts p (firstn k s) = starts p s && (List.length p <=? k)%nat.
Proof.
  induction p as [|x p IH]; intros k s; [destruct (firstn k s), s; reflexivity|]. destruct k as [|k]; [cbn [firstn starts List.length]; rewrite andb_false_r; reflexivity|]. destruct s as [|y s]; [reflexivity|]. cbn [firstn starts List.length Nat.leb]. rewrite IH. rewrite andb_assoc. reflexivity.
Qed.
Lemma hits_firstn p : forall k s, hits p (firstn k s) = hits p s && (List.length p <=? k)%nat.
Proof.
  unfold hits. induction p as [|x p IH]; intros k s; [reflexivity|]. destruct k as [|k]; [cbn [firstn strip_ci List.length Nat.leb]; rewrite andb_false_r; reflexivity|]. destruct s as [|y s]; [reflexivity|]. cbn [firstn strip_ci List.length Nat.leb]. destruct (alow_c y =? x); [apply IH|reflexivity].
Qed.
Lemma skip_first {A} j n (s : list A) : skipn j (firstn n s) = firstn (n - j) (skipn j s).
Proof. apply skipn_firstn_comm. Qed.
Lemma first_in_some P s n i : (n <= List.length s)%nat -> first P (firstn n s) = Some i -> (i < n)%nat /\ P (firstn (n - i) (skipn i s)) = true /\ forall j, (j < i)%nat -> P (firstn (n - j) (skipn j s)) = false.
Proof. intros L H. destruct (first_Some _ _ _ H) as (A & B & C). rewrite firstn_length_le in A by exact L. split; [exact A|]. split; [rewrite <- skip_first; exact B|]. intros j J. rewrite <- skip_first. apply C. exact J. Qed.
Lemma first_in_none P s n : (n <= List.length s)%nat -> first P (firstn n s) = None -> forall j, (j < n)%nat -> P (firstn (n - j) (skipn j s)) = false.
Proof. intros L H j J. rewrite <- skip_first. apply (first_None _ _ H). rewrite firstn_length_le by exact L. exact J. Qed.
(* at the bound there is a <, and the pattern has one at most at its start *)
Lemma starts_no_straddle x p : ~ In 60 p -> forall s, starts (x :: p) s = true -> forall d, (0 < d < List.length (x :: p))%nat -> starts [60] (skipn d s) = false.
Proof.
  intros Np s H d D. apply starts_spec in H as [t ->]. destruct d as [|d]; [lia|]. cbn [app skipn List.length] in *. rewrite skipn_app. replace (d - List.length p)%nat with O by lia. destruct (skipn d p) as [|y q] eqn:E; [exfalso; assert (L : List.length (skipn d p) = O) by (rewrite E; reflexivity); rewrite skipn_length in L; lia|]. cbn [app starts]. destruct (N.eqb_spec 60 y) as [<-|]; [|reflexivity]. exfalso. apply Np. rewrite <- (firstn_skipn d p), E. apply in_or_app. right. left. reflexivity.
Qed.
Lemma find_in_some x p s n i : ~ In 60 p -> (n <= List.length s)%nat -> starts [60] (skipn n s) = true -> find (x :: p) (firstn n s) = Some i ->
  (i < n)%nat /\ starts (x :: p) (skipn i s) = true /\ forall j, (j < i)%nat -> starts (x :: p) (skipn j s) = false.
Proof.
  intros Np L Hn H. rewrite find_is_first in H by discriminate. destruct (first_in_some _ _ _ _ L H) as (A & B & C). split; [exact A|]. rewrite starts_firstn in B. apply andb_true_iff in B as [B B2]. split; [exact B|]. intros j J. specialize (C j J). rewrite starts_firstn in C. destruct (starts (x :: p) (skipn j s)) eqn:E; [|reflexivity]. cbn [andb] in C. lia.
Qed.
Lemma find_in_none x p s n : ~ In 60 p -> (n <= List.length s)%nat -> starts [60] (skipn n s) = true -> find (x :: p) (firstn n s) = None -> forall j, (j < n)%nat -> starts (x :: p) (skipn j s) = false.
Proof.
  intros Np L Hn H j J. rewrite find_is_first in H by discriminate. pose proof (first_in_none _ _ _ L H j J) as C. rewrite starts_firstn in C. destruct (starts (x :: p) (skipn j s)) eqn:E; [|reflexivity]. cbn [andb] in C. exfalso. pose proof (starts_no_straddle x p Np _ E (n - j)%nat ltac:(lia)) as K. rewrite skipn_sk in K. replace (j + (n - j))%nat with n in K by lia. congruence.
Qed.
Lemma hits_lt s : hits [60] s = starts [60] s.
Proof. destruct s as [|c s]; [reflexivity|]. unfold hits. cbn [strip_ci starts]. rewrite alow_lt, N.eqb_sym, andb_true_r. destruct (60 =? c); reflexivity. Qed.
Lemma open_low : low_ascii (u "<script") = true. Proof. reflexivity. Qed.
Lemma open_no_lt : ~ In 60 (u "script"). Proof. cbn. intuition discriminate. Qed.
Lemma hits_straddle s n j : hits (u "<script") (skipn j s) = true -> (j < n)%nat -> starts [60] (skipn n s) = true -> (j + 7 <= n)%nat.
Proof.
  intros H J Hn. destruct (Nat.le_gt_cases (j + 7) n) as [L|L]; [exact L|]. exfalso. change (u "<script") with (60 :: u "script") in H. pose proof (no_inner (u "script") [] (skipn j s) (n - j) H open_no_lt) as K. rewrite skipn_sk in K. replace (j + (n - j))%nat with n in K by lia. rewrite hits_lt in K. rewrite K in Hn; [discriminate Hn|]. change (List.length (u "script")) with 6%nat. lia.
Qed.
Lemma start_go fuel : forall bound s, (List.length s < fuel)%nat -> (bound < List.length s)%nat -> starts [60] (skipn bound s) = true ->
  match find_script_start_go fuel bound s with
  | Some b => (b < bound)%nat /\ open_at (skipn b s) = true /\ forall j, (j < b)%nat -> open_at (skipn j s) = false
  | None => forall j, (j < bound)%nat -> open_at (skipn j s) = false
  end.
Proof.
  induction fuel as [|fuel IH]; intros bound s L B Hb; [lia|]. cbn [find_script_start_go]. rewrite (ascii_find_first _ _ open_low). destruct (first (hits (u "<script")) (firstn bound s)) as [start|] eqn:E.
  - destruct (first_in_some _ s bound start ltac:(lia) E) as (A & H & Before). rewrite hits_firstn in H. apply andb_true_iff in H as [H H7]. change (List.length (u "<script")) with 7%nat in H7. assert (S7 : (start + 7 <= bound)%nat) by lia.
    assert (Bf : forall j, (j < start)%nat -> open_at (skipn j s) = false).
    { intros j J. specialize (Before j J). rewrite hits_firstn in Before. change (List.length (u "<script")) with 7%nat in Before. destruct (open_at (skipn j s)) eqn:K; [|reflexivity]. apply at_tag_hits in K. rewrite K in Before. cbn [andb] in Before. lia. }
    destruct (skipn (start + 7) s) as [|c rest] eqn:R; [assert (Z : List.length (skipn (start + 7) s) = O) by (rewrite R; reflexivity); rewrite skipn_length in Z; lia|]. rewrite mem_stop. destruct (ends_name c) eqn:Ec.
    + split; [exact A|]. split; [|exact Bf]. rewrite at_tag_rest, H, skipn_sk. change (List.length (u "<script")) with 7%nat. rewrite R. exact Ec.
    + assert (Sm : forall j, (start <= j < start + 7)%nat -> open_at (skipn j s) = false).
      { intros j J. destruct (open_at (skipn j s)) eqn:K; [exfalso|reflexivity]. destruct (Nat.eq_dec j start) as [->|Q].
        - rewrite at_tag_rest, skipn_sk in K. change (List.length (u "<script")) with 7%nat in K. rewrite R, Ec, andb_false_r in K. discriminate K.
        - apply at_tag_hits in K. pose proof (no_inner (u "script") (u "script") (skipn start s) (j - start) H open_no_lt) as Z. rewrite skipn_sk in Z. replace (start + (j - start))%nat with j in Z by lia. change (u "<script") with (60 :: u "script") in K. rewrite K in Z. change (List.length (u "script")) with 6%nat in Z. discriminate Z. lia. }
      rewrite <- R. assert (Lr : List.length (skipn (start + 7) s) = (List.length s - (start + 7))%nat) by apply skipn_length.
      specialize (IH (bound - (start + 7))%nat (skipn (start + 7) s) ltac:(lia) ltac:(lia)). rewrite skipn_sk in IH. replace (start + 7 + (bound - (start + 7)))%nat with bound in IH by lia. specialize (IH Hb).
      destruct (find_script_start_go fuel (bound - (start + 7)) (skipn (start + 7) s)) as [b|]; cbn [option_map].
      * destruct IH as (I1 & I2 & I3). rewrite skipn_sk in I2. split; [lia|]. split; [exact I2|]. intros j J. destruct (Nat.lt_ge_cases j start); [apply Bf; assumption|]. destruct (Nat.lt_ge_cases j (start + 7)); [apply Sm; lia|]. specialize (I3 (j - (start + 7))%nat ltac:(lia)). rewrite skipn_sk in I3. replace (start + 7 + (j - (start + 7)))%nat with j in I3 by lia. exact I3.
      * intros j J. destruct (Nat.lt_ge_cases j start); [apply Bf; assumption|]. destruct (Nat.lt_ge_cases j (start + 7)); [apply Sm; lia|]. specialize (IH (j - (start + 7))%nat ltac:(lia)). rewrite skipn_sk in IH. replace (start + 7 + (j - (start + 7)))%nat with j in IH by lia. exact IH.
  - intros j J. destruct (open_at (skipn j s)) eqn:K; [exfalso|reflexivity]. apply at_tag_hits in K. pose proof (hits_straddle s bound j K J Hb) as S7. pose proof (first_in_none _ s bound ltac:(lia) E j J) as C. rewrite hits_firstn, K in C. change (List.length (u "<script")) with 7%nat in C. cbn [andb] in C. lia.
Qed.

(* ---------- the tail of an end tag that is passed over ---------- *)
Lemma tag_end_plain t : (forall c, In c (take_while (fun x => negb (x =? 62)) t) -> c <> 34 /\ c <> 39) ->
  find_tag_end None t = if existsb (fun x => x =? 62) t then Some (List.length (take_while (fun x => negb (x =? 62)) t)) else None.
Proof.
  induction t as [|c t IH]; intros H; [reflexivity|]. cbn [find_tag_end take_while existsb] in *. destruct (N.eqb_spec c 62) as [->|Nc].
  - reflexivity.
  - cbn [negb] in H. destruct (H c (or_introl eq_refl)) as [H1 H2]. replace ((c =? 34) || (c =? 39)) with false by lia. rewrite IH by (intros x X; apply H; right; exact X). cbn [orb negb]. destruct (existsb _ t); reflexivity.
Qed.
Lemma tail_quiet t n : plain_tail t -> (forall e, find_tag_end None t = Some e -> n = S e) -> (find_tag_end None t = None -> n = List.length t) ->
  (n <= List.length t)%nat /\ forall j, (j < n)%nat -> match skipn j t with c :: _ => quiet MEsc c = true | [] => False end.
Proof.
  intros P H1 H2. rewrite tag_end_plain in H1, H2 by (intros c I; destruct (P c I) as (A & B & _); split; assumption). revert n P H1 H2. induction t as [|c t IH]; intros n P H1 H2.
  - cbn [existsb List.length] in *. rewrite (H2 eq_refl). split; [lia|]. intros j J. lia.
  - cbn [take_while existsb] in *. unfold plain_tail in P. cbn [take_while] in P. destruct (N.eqb_spec c 62) as [->|Nc].
    + cbn [negb orb] in *. cbn [List.length] in *. rewrite (H1 _ eq_refl). split; [lia|]. intros j J. assert (j = O) as -> by lia. reflexivity.
    + cbn [negb orb] in *. destruct (P c (or_introl eq_refl)) as (_ & _ & C1 & C2). destruct n as [|n].
      { exfalso. destruct (existsb (fun x => x =? 62) t); [specialize (H1 _ eq_refl); discriminate H1|specialize (H2 eq_refl); discriminate H2]. }
      destruct (IH n) as [A B].
      * intros x X. apply P. right. exact X.
      * destruct (existsb (fun x => x =? 62) t); intros e E; [|discriminate E]. specialize (H1 _ eq_refl). cbn [List.length] in H1. injection E as <-. lia.
      * destruct (existsb (fun x => x =? 62) t); intros E; [discriminate E|]. specialize (H2 eq_refl). cbn [List.length] in H2. lia.
      * cbn [List.length]. split; [lia|]. intros [|j] J; [cbn [skipn]; unfold quiet; lia|]. cbn [skipn]. apply B. lia.
Qed.
Lemma quiet_pass n t : (n <= List.length t)%nat -> (forall j, (j < n)%nat -> match skipn j t with c :: _ => quiet MEsc c = true | [] => False end) -> lk script MEsc O t = option_map (fun i => (n + i)%nat) (lk script MEsc O (skipn n t)).
Proof. intros L H. apply lk_pass; [exact L|]. intros j J. specialize (H j J). destruct (skipn j t) as [|c r]; [contradiction|]. apply decide_quiet. exact H. Qed.

(* ---------- the loop ---------- *)
Definition mode_of (escaped dbl : bool) : mode := if escaped then (if dbl then MDbl else MEsc) else MData.
Definition result (off : nat) (m : mode) (s : str) : option (nat * nat) := match lk script m O s with None => None | Some i => Some (off + i, off + tag_after s (i + 8))%nat end.
Lemma tag_after_shift s n i : (n + i <= List.length s)%nat -> (n + tag_after (skipn n s) i)%nat = tag_after s (n + i).
Proof. intros L. unfold tag_after. rewrite skipn_sk. destruct (find_tag_end None (skipn (n + i) s)); [lia|]. rewrite skipn_length. lia. Qed.
Lemma result_shift off m m' n s : lk script m O s = option_map (fun i => (n + i)%nat) (lk script m' O (skipn n s)) -> (forall i, lk script m' O (skipn n s) = Some i -> (n + (i + 8) <= List.length s)%nat) -> result (off + n) m' (skipn n s) = result off m s.
Proof.
  intros E L. unfold result. rewrite E. destruct (lk script m' 0 (skipn n s)) as [i|]; [|reflexivity]. cbn [option_map]. f_equal. f_equal; [lia|]. replace (n + i + 8)%nat with (n + (i + 8))%nat by lia. rewrite <- (tag_after_shift s n (i + 8)) by (apply L; reflexivity). lia.
Qed.
Lemma lk_at m k : forall s i, lk script m k s = Some i -> close_at (skipn i s) = true.
Proof.
  intros s. revert m k. induction s as [|c t IH]; intros m k i H; [discriminate H|]. cbn [lk] in H. destruct k as [|k].
  - destruct (decide script m (c :: t)) as [|m' n|] eqn:D.
    + assert (i = O) as -> by congruence. cbn [skipn]. destruct m; cbn [decide] in D; change (tag script) with (u "</script") in D; repeat match type of D with (if ?b then _ else _) = _ => destruct b eqn:?; try discriminate D end; reflexivity.
    + destruct (lk script m' n t) as [j|] eqn:E; [|discriminate H]. assert (i = S j) as -> by (cbn [option_map] in H; congruence). exact (IH _ _ _ E).
    + destruct (lk script m 0 t) as [j|] eqn:E; [|discriminate H]. assert (i = S j) as -> by (cbn [option_map] in H; congruence). exact (IH _ _ _ E).
  - destruct (lk script m k t) as [j|] eqn:E; [|discriminate H]. assert (i = S j) as -> by (cbn [option_map] in H; congruence). exact (IH _ _ _ E).
Qed.
Lemma lk_len m s i : lk script m O s = Some i -> (i + 8 <= List.length s)%nat.
Proof. intros H. apply lk_at in H. apply at_tag_hits in H. apply hits_len in H. rewrite skipn_length in H. change (List.length (u "</script")) with 8%nat in H. lia. Qed.
Lemma shift_len m n s i : (n <= List.length s)%nat -> lk script m O (skipn n s) = Some i -> (n + (i + 8) <= List.length s)%nat.
Proof. intros L H. apply lk_len in H. rewrite skipn_length in H. lia. Qed.
Lemma close_lt s : close_at s = true -> starts [60] s = true /\ open_at s = false /\ starts (u "-->") s = false /\ starts (u "<!--") s = false.
Proof.
  intros H. apply at_tag_hits in H. unfold hits in H. destruct s as [|c s]; [discriminate H|]. change (u "</script") with (60 :: 47 :: u "script") in H. cbn [strip_ci] in H. rewrite alow_lt in H. destruct (N.eqb_spec c 60) as [->|]; [|discriminate H]. destruct s as [|d s]; [discriminate H|]. cbn [strip_ci] in H. rewrite alow_slash in H. destruct (N.eqb_spec d 47) as [->|]; [|discriminate H]. repeat split; reflexivity.
Qed.
Lemma no_close_none m : forall s, (forall j, (j < List.length s)%nat -> close_at (skipn j s) = false) -> lk script m O s = None.
Proof.
  intros s H. destruct (lk script m 0 s) as [i|] eqn:E; [|reflexivity]. pose proof (lk_len _ _ _ E). apply lk_at in E. rewrite (H i) in E by lia. discriminate E.
Qed.
Lemma script_go fuel : forall esc dbl off s, (List.length s < fuel)%nat -> (esc = false -> dbl = false) -> nice (mode_of esc dbl) s -> find_script_go fuel esc dbl off s = result off (mode_of esc dbl) s.
Proof.
  induction fuel as [|fuel IH]; intros esc dbl off s L Md Nc; [lia|]. cbn [find_script_go]. change (u "script") with script. rewrite (rawtext_first script sname_ok). unfold found. change (List.length (tag script)) with 8%nat. destruct (lk script MRaw 0 s) as [close|] eqn:E.
  2: { unfold result. rewrite no_close_none; [reflexivity|]. intros j J. exact (lk_raw_none script sname_ok s E j J). }
  destruct (lk_raw_spec script sname_ok s close E) as (Lc & Hc & Before). change (tag script) with (u "</script") in Hc, Before. destruct (close_lt _ Hc) as (C1 & C2 & C3 & C4). pose proof (lk_len _ _ _ E) as L8.
  assert (Stp : forall m, m <> MDbl -> decide script m (skipn close s) = Stop).
  { intros m Nm. destruct m; [| | |congruence]; cbn [decide]; change (tag script) with (u "</script"); unfold script_open; rewrite ?C2, ?C3, ?Hc; reflexivity. }
  assert (Fnd : forall m, m <> MDbl -> (forall j, (j < close)%nat -> decide script m (skipn j s) = Go) -> result off m s = Some (off + close, off + tag_after s (close + 8))%nat).
  { intros m Nm G. unfold result. rewrite (lk_pass script m close s) by (try lia; exact G). rewrite lk_stop; [|apply Stp; exact Nm|intros Q; rewrite Q in C1; discriminate C1]. cbn [option_map]. rewrite Nat.add_0_r. reflexivity. }
  cbv zeta. destruct esc; cbn [negb].
  - (* escaped *)
    assert (Ce : forall e, find (u "-->") (firstn close s) = Some e -> (e < close)%nat /\ starts (u "-->") (skipn e s) = true /\ forall j, (j < e)%nat -> starts (u "-->") (skipn j s) = false).
    { intros e. apply (find_in_some 45 [45; 62]); [intros [Q|[Q|[]]]; discriminate Q|lia|exact C1]. }
    assert (Cn : find (u "-->") (firstn close s) = None -> forall j, (j < close)%nat -> starts (u "-->") (skipn j s) = false).
    { apply (find_in_none 45 [45; 62]); [intros [Q|[Q|[]]]; discriminate Q|lia|exact C1]. }
    assert (Leave : forall e, (e < close)%nat -> starts (u "-->") (skipn e s) = true -> (forall j, (j < e)%nat -> decide script (mode_of true dbl) (skipn j s) = Go) -> find_script_go fuel false false (off + (e + 3)) (skipn (e + 3) s) = result off (mode_of true dbl) s).
    { intros e He Se G. assert (L3 : (e + 3 <= List.length s)%nat) by lia. rewrite IH.
      - cbn [mode_of]. apply (result_shift off (mode_of true dbl) MData (e + 3)%nat s); [|intros i Hi; exact (shift_len _ _ _ _ L3 Hi)]. rewrite (lk_pass script _ e s) by (try lia; exact G). rewrite (lk_jumps script _ MData 2 (skipn e s)); [|destruct dbl; cbn [mode_of decide]; rewrite Se; reflexivity|rewrite skipn_length; lia]. rewrite skipn_sk. destruct (lk script MData 0 (skipn (e + 3) s)); cbn [option_map]; [f_equal; lia|reflexivity].
      - rewrite skipn_length. lia.
      - reflexivity.
      - cbn [mode_of]. apply nice_esc_data. destruct dbl; cbn [mode_of] in Nc; [apply nice_dbl_esc|]; exact Nc. }
    destruct dbl; cbn [mode_of] in *.
    + (* double escaped *)
      destruct (find (u "-->") (firstn close s)) as [e|] eqn:Fe; cbn [orb].
      * destruct (Ce e eq_refl) as (He & Se & Be). apply (Leave e He Se). intros j J. cbn [decide]. rewrite (Be j J), (Before j) by lia. reflexivity.
      * specialize (Cn eq_refl). assert (Ps : lk script MDbl O s = option_map (fun i => (close + 8 + i)%nat) (lk script MEsc O (skipn (close + 8) s))).
        { rewrite (lk_pass script MDbl close s) by (try lia; intros j J; cbn [decide]; rewrite (Cn j J), (Before j J); reflexivity). rewrite (lk_jumps script MDbl MEsc 7 (skipn close s)); [|cbn [decide]; rewrite C3, Hc; reflexivity|rewrite skipn_length; lia]. rewrite skipn_sk. destruct (lk script MEsc 0 (skipn (close + 8) s)); cbn [option_map]; [f_equal; lia|reflexivity]. }
        assert (Stay : find_script_go fuel true false (off + (close + 8)) (skipn (close + 8) s) = result off MDbl s).
        { rewrite IH; [|rewrite skipn_length; lia|discriminate|cbn [mode_of]; apply nice_dbl_esc; apply nice_dbl; exact Nc]. cbn [mode_of]. apply result_shift; [exact Ps|]. intros i Hi. exact (shift_len _ _ _ _ L8 Hi). }
        assert (Next : find_script_go fuel true false (off + tag_after s (close + 8)) (skipn (tag_after s (close + 8)) s) = result off MDbl s).
        { pose proof (Nc close Hc) as Pt. assert (Tq : exists n, tag_after s (close + 8) = (close + 8 + n)%nat /\ (n <= List.length (skipn (close + 8) s))%nat /\ forall j, (j < n)%nat -> match skipn j (skipn (close + 8) s) with c :: _ => quiet MEsc c = true | [] => False end).
          { unfold tag_after. destruct (find_tag_end None (skipn (close + 8) s)) as [e|] eqn:Te.
            - exists (S e). split; [lia|]. apply tail_quiet; [exact Pt|intros e' Q; congruence|congruence].
            - exists (List.length (skipn (close + 8) s)). split; [rewrite skipn_length; lia|]. apply tail_quiet; [exact Pt|congruence|reflexivity]. }
          destruct Tq as (n & -> & Ln & Qn). rewrite skipn_length in Ln. rewrite IH; [|rewrite skipn_length; lia|discriminate|cbn [mode_of]; apply nice_dbl_esc; apply nice_dbl; exact Nc]. cbn [mode_of].
          apply result_shift; [|intros i Hi; apply (shift_len MEsc); [lia|exact Hi]]. rewrite Ps. rewrite (quiet_pass n) by (try exact Qn; rewrite skipn_length; lia). rewrite skipn_sk. destruct (lk script MEsc 0 (skipn (close + 8 + n) s)); cbn [option_map]; [f_equal; lia|reflexivity]. }
        destruct (ascii_find _ _) as [later|]; [|exact Next]. destruct (skipn (close + 8 + later + 8) s) as [|c r]; [exact Stay|]. destruct (mem c TAG_END_NAME_STOP); [exact Stay|exact Next].
    + (* escaped, not double escaped *)
      pose proof (start_go (S (List.length s)) close s ltac:(lia) ltac:(lia) C1) as Ss. change (find_script_start_go (S (List.length s)) close s) with (find_script_start_marker close s) in Ss.
      assert (Enter : forall b, find_script_start_marker close s = Some b -> (forall j, (j < b)%nat -> starts (u "-->") (skipn j s) = false) -> find_script_go fuel true true (off + (b + 7)) (skipn (b + 7) s) = result off MEsc s).
      { intros b Eb Nb. rewrite Eb in Ss. destruct Ss as (B1 & B2 & B3). assert (Lb : (b + 7 <= List.length s)%nat) by lia. rewrite IH.
        - cbn [mode_of]. apply result_shift; [|intros i Hi; exact (shift_len _ _ _ _ Lb Hi)]. rewrite (lk_pass script MEsc b s).
          + rewrite (lk_jumps script MEsc MDbl 6 (skipn b s)); [|cbn [decide]; unfold script_open; rewrite B2|rewrite skipn_length; lia].
            * rewrite skipn_sk. destruct (lk script MDbl 0 (skipn (b + 7) s)); cbn [option_map]; [f_equal; lia|reflexivity].
            * destruct (starts (u "-->") (skipn b s)) eqn:K; [|reflexivity]. exfalso. apply starts_spec in K as [t K]. rewrite K in B2. discriminate B2.
          + lia.
          + intros j J. cbn [decide]. change (tag script) with (u "</script"). unfold script_open. rewrite (Nb j J), (B3 j J), (Before j) by lia. reflexivity.
        - rewrite skipn_length. lia.
        - discriminate.
        - cbn [mode_of]. apply nice_esc_dbl; assumption. }
      destruct (find (u "-->") (firstn close s)) as [e|] eqn:Fe.
      * destruct (Ce e eq_refl) as (He & Se & Be). cbn [orb]. destruct (find_script_start_marker close s) as [b|] eqn:Fb.
        -- destruct (Nat.ltb_spec e b) as [Q|Q].
           ++ destruct Ss as (B1 & B2 & B3). apply (Leave e He Se). intros j J. cbn [decide]. change (tag script) with (u "</script"). unfold script_open. rewrite (Be j J), (B3 j), (Before j) by lia. reflexivity.
           ++ apply (Enter b eq_refl). intros j J. apply Be. lia.
        -- apply (Leave e He Se). intros j J. cbn [decide]. change (tag script) with (u "</script"). unfold script_open. rewrite (Be j J), (Ss j), (Before j) by lia. reflexivity.
      * specialize (Cn eq_refl). destruct (find_script_start_marker close s) as [b|] eqn:Fb; [apply (Enter b eq_refl); intros j J; apply Cn; destruct Ss; lia|].
        rewrite Fnd; [reflexivity|discriminate|]. intros j J. cbn [decide]. change (tag script) with (u "</script"). unfold script_open. rewrite (Cn j J), (Ss j J), (Before j J). reflexivity.
  - (* not escaped *)
    assert (dbl = false) as -> by (apply Md; reflexivity). cbn [mode_of] in *. destruct (find (u "<!--") (firstn close s)) as [cs|] eqn:Fc.
    + destruct (find_in_some 60 [33; 45; 45] s close cs) as (H1 & H2 & H3); [intros [Q|[Q|[Q|[]]]]; discriminate Q|lia|exact C1|exact Fc|]. assert (Lcs : (cs + 2 <= List.length s)%nat) by lia. rewrite IH.
      * cbn [mode_of]. apply result_shift; [|intros i Hi; exact (shift_len _ _ _ _ Lcs Hi)]. rewrite (lk_pass script MData cs s).
        -- rewrite (lk_jumps script MData MEsc 1 (skipn cs s)); [|cbn [decide]; change (tag script) with (u "</script"); rewrite (Before cs H1); change (u "<!--") with [60; 33; 45; 45]; rewrite H2; reflexivity|rewrite skipn_length; lia]. rewrite skipn_sk. destruct (lk script MEsc 0 (skipn (cs + 2) s)); cbn [option_map]; [f_equal; lia|reflexivity].
        -- lia.
        -- intros j J. cbn [decide]. change (tag script) with (u "</script"). rewrite (Before j) by lia. change (u "<!--") with [60; 33; 45; 45]. rewrite (H3 j J). reflexivity.
      * rewrite skipn_length. lia.
      * discriminate.
      * cbn [mode_of]. apply nice_data_esc; [exact Nc|exact H2].
    + rewrite Fnd; [reflexivity|discriminate|]. intros j J. cbn [decide]. change (tag script) with (u "</script"). rewrite (Before j J). change (u "<!--") with [60; 33; 45; 45]. rewrite (find_in_none 60 [33; 45; 45] s close) by (try exact Fc; try exact J; try exact C1; try lia; intros [Q|[Q|[Q|[]]]]; discriminate Q). reflexivity.
Qed.
Lemma script_first s : nice MData s -> find_script_end_tag s = result O MData s.
Proof. intros H. unfold find_script_end_tag. apply (script_go (S (List.length s)) false false O s); [lia|reflexivity|exact H]. Qed.
