(* PROOFS about EncModel: termination of the prescan, its bounded window, and what it finds *)
From Coq Require Import Lia ZifyBool ZifyN ZifyNat.
From Verif Require Import Str StrFacts EncModel.
Open Scope N_scope.

Lemma dw_len p (s : str) : (List.length (drop_while p s) <= List.length s)%nat.
Proof. induction s as [|c s IH]; cbn [drop_while List.length]; [lia|]. destruct (p c); cbn [List.length]; lia. Qed.
Lemma dw_app_nil p (s b : str) : drop_while p s = [] -> drop_while p (s ++ b) = drop_while p b.
Proof. induction s as [|c s IH]; cbn [drop_while app]; intros H; [reflexivity|]. destruct (p c); [exact (IH H)|discriminate H]. Qed.
Lemma dw_app_cons p (s b : str) x r : drop_while p s = x :: r -> drop_while p (s ++ b) = x :: r ++ b /\ take_while p (s ++ b) = take_while p s.
Proof.
  induction s as [|c s IH]; cbn [drop_while take_while app]; intros H; [discriminate H|]. destruct (p c).
  - destruct (IH H) as [-> ->]. split; reflexivity.
  - injection H as -> ->. split; reflexivity.
Qed.
Lemma find_char_app q (s b : str) k : find_char q s = Some k -> find_char q (s ++ b) = Some k /\ (k < List.length s)%nat.
Proof.
  revert k. induction s as [|c s IH]; cbn [find_char app List.length]; intros k H; [discriminate H|]. destruct (c =? q); [injection H as <-; split; [reflexivity|lia]|].
  destruct (find_char q s) as [j|]; [|discriminate H]. destruct (IH j eq_refl) as [-> L]. cbn in *. injection H as <-. split; [reflexivity|lia].
Qed.
Lemma find_char_app_none q (s b : str) : find_char q s = None -> find_char q (s ++ b) = option_map (fun k => (List.length s + k)%nat) (find_char q b).
Proof.
  induction s as [|c s IH]; cbn [find_char app List.length]; intros H; [destruct (find_char q b); reflexivity|].
  destruct (c =? q); [discriminate H|]. destruct (find_char q s); [discriminate H|]. rewrite (IH eq_refl). destruct (find_char q b); reflexivity.
Qed.
Lemma skipn_len (n : nat) (s : str) : List.length (skipn n s) = (List.length s - n)%nat.
Proof. apply skipn_length. Qed.

(* one attribute, on a truncated input *)
Lemma attr_one_cons s b n v x r : attr_one s = Attr n v (x :: r) -> attr_one (s ++ b) = Attr n v (x :: r ++ b).
Proof.
  unfold attr_one, skip. set (p := fun b => negb (name_stop b)). intros H.
  destruct (drop_while p s) as [|y s1] eqn:D; [cbn in H; discriminate H|].
  destruct (dw_app_cons p s b y s1 D) as [-> ->]. rewrite app_comm_cons.
  destruct (drop_while ws (y :: s1)) as [|e t] eqn:D2; [discriminate H|].
  destruct (dw_app_cons ws _ b e t D2) as [-> _].
  destruct (e =? 61); [|assert ((x :: r)%list = e :: t) as Q by congruence; injection Q as <- <-; congruence].
  destruct (drop_while ws t) as [|q r1] eqn:D3; [discriminate H|]. destruct (dw_app_cons ws _ b q r1 D3) as [-> _].
  destruct ((q =? 34) || (q =? 39)).
  - destruct (find_char q r1) as [k|] eqn:F; [|discriminate H]. destruct (find_char_app q r1 b k F) as [-> L].
    assert (firstn k (r1 ++ b) = firstn k r1) as -> by (rewrite firstn_app; replace (k - List.length r1)%nat with O by lia; cbn [firstn]; apply app_nil_r).
    assert (skipn (S k) (r1 ++ b) = skipn (S k) r1 ++ b) as -> by (rewrite skipn_app; replace (S k - List.length r1)%nat with O by lia; reflexivity).
    assert (skipn (S k) r1 = x :: r) as E by congruence. rewrite E. cbn [app]. congruence.
  - rewrite app_comm_cons. assert (drop_while (fun b0 => negb (value_stop b0)) (q :: r1) = x :: r) as E by congruence.
    destruct (dw_app_cons _ _ b x r E) as [-> ->]. congruence.
Qed.
Definition spent (o : one) (n : nat) : Prop := match o with Stop _ => True | Attr _ _ r => (List.length r <= n)%nat end.
Lemma attr_one_nil s b : (match attr_one s with Stop _ => True | Attr _ _ r => r = [] end) -> spent (attr_one (s ++ b)) (List.length b).
Proof.
  unfold attr_one, skip. set (p := fun b => negb (name_stop b)). intros H.
  (* any attr_one on a rest no longer than b *)
  assert (G : forall nm s0, (List.length s0 <= List.length b)%nat ->
    spent (match s0 with
     | [] => Attr nm None s0
     | e :: t => if e =? 61 then match drop_while ws t with
         | [] => Stop false
         | q :: r => if (q =? 34) || (q =? 39) then match find_char q r with Some k => Attr nm (Some (firstn k r)) (skipn (S k) r) | None => Stop true end
            else Attr nm (Some (take_while (fun b => negb (value_stop b)) (q :: r))) (drop_while (fun b => negb (value_stop b)) (q :: r)) end
       else Attr nm None s0 end) (List.length b)).
  { intros nm s0 L. destruct s0 as [|e t]; [exact L|]. cbn [List.length] in L. destruct (e =? 61); [|exact L].
    pose proof (dw_len ws t) as L2. destruct (drop_while ws t) as [|q r]; [exact Logic.I|]. cbn [List.length] in L2.
    destruct ((q =? 34) || (q =? 39)).
    - destruct (find_char q r); [|exact Logic.I]. unfold spent. rewrite skipn_length. lia.
    - unfold spent. pose proof (dw_len (fun b => negb (value_stop b)) (q :: r)) as L3. cbn [List.length] in L3. lia. }
  assert (DL : forall f, (List.length (drop_while f b) <= List.length b)%nat) by (intros f; apply dw_len).
  destruct (drop_while p s) as [|y s1] eqn:D.
  { rewrite (dw_app_nil p s b D). apply G. pose proof (DL p). pose proof (dw_len ws (drop_while p b)). lia. }
  destruct (dw_app_cons p s b y s1 D) as [-> ->]. rewrite app_comm_cons.
  destruct (drop_while ws (y :: s1)) as [|e t] eqn:D2.
  { rewrite (dw_app_nil ws (y :: s1) b D2). apply G. apply DL. }
  destruct (dw_app_cons ws _ b e t D2) as [-> _].
  destruct (e =? 61); [|discriminate H].
  destruct (drop_while ws t) as [|q r1] eqn:D3.
  { rewrite (dw_app_nil ws t b D3). specialize (DL ws). destruct (drop_while ws b) as [|q r]; [exact Logic.I|]. cbn [List.length] in DL.
    destruct ((q =? 34) || (q =? 39)).
    - destruct (find_char q r); [|exact Logic.I]. unfold spent. rewrite skipn_length. lia.
    - unfold spent. pose proof (dw_len (fun b => negb (value_stop b)) (q :: r)) as L3. cbn [List.length] in L3. lia. }
  destruct (dw_app_cons ws _ b q r1 D3) as [-> _].
  destruct ((q =? 34) || (q =? 39)).
  - destruct (find_char q r1) as [k|] eqn:F.
    + destruct (find_char_app q r1 b k F) as [-> L]. unfold spent. rewrite skipn_length, app_length. assert (List.length (skipn (S k) r1) = O) as E by (rewrite H; reflexivity). rewrite skipn_length in E. lia.
    + rewrite (find_char_app_none q r1 b F). destruct (find_char q b) as [k|] eqn:Fb; cbn [option_map]; [|exact Logic.I]. unfold spent. rewrite skipn_length, app_length. lia.
  - rewrite app_comm_cons. rewrite (dw_app_nil _ (q :: r1) b H). unfold spent. apply DL.
Qed.
Lemma Attr_inj n v r n' v' r' : Attr n v r = Attr n' v' r' -> r' = r.
Proof. intros H. injection H as _ _ ->. reflexivity. Qed.
(* it consumes *)
Lemma attr_one_less ch t n v r : (ws ch || (ch =? 47)) = false -> (ch =? 62) = false -> (ch =? 60) = false -> attr_one (ch :: t) = Attr n v r -> (List.length r < List.length (ch :: t))%nat.
Proof.
  intros H1 H2 H3. apply orb_false_iff in H1. destruct H1 as [H1 H4]. unfold attr_one, skip.
  destruct (ch =? 61) eqn:E.
  - assert (ch = 61) by lia. subst ch. cbn [drop_while take_while]. change (negb (name_stop 61)) with false. cbn iota. change (drop_while ws (61 :: t)) with (61 :: t). cbn iota. change (61 =? 61) with true. cbn iota.
    pose proof (dw_len ws t) as L. destruct (drop_while ws t) as [|q r1]; [discriminate|]. cbn [List.length] in *.
    destruct ((q =? 34) || (q =? 39)).
    + destruct (find_char q r1); [|discriminate]. intros Q. apply Attr_inj in Q. subst r. rewrite skipn_length. lia.
    + intros Q. apply Attr_inj in Q. subst r. pose proof (dw_len (fun b => negb (value_stop b)) r1) as L3. destruct (negb (value_stop q)); cbn [List.length] in *; lia.
  - assert (negb (name_stop ch) = true) as C by (unfold name_stop; rewrite H1, H2, H3, H4, E; reflexivity).
    cbn [drop_while take_while]. rewrite C. pose proof (dw_len (fun b => negb (name_stop b)) t) as L0. set (s1 := drop_while (fun b => negb (name_stop b)) t) in *.
    pose proof (dw_len ws s1) as L1. destruct (drop_while ws s1) as [|e t1]; [intros Q; apply Attr_inj in Q; subst r; cbn [List.length]; lia|]. cbn [List.length] in *.
    destruct (e =? 61); [|intros Q; apply Attr_inj in Q; subst r; cbn [List.length]; lia].
    pose proof (dw_len ws t1) as L. destruct (drop_while ws t1) as [|q r1]; [discriminate|]. cbn [List.length] in *.
    destruct ((q =? 34) || (q =? 39)).
    + destruct (find_char q r1); [|discriminate]. intros Q. apply Attr_inj in Q. subst r. rewrite skipn_length. lia.
    + intros Q. apply Attr_inj in Q. subst r. pose proof (dw_len (fun b => negb (value_stop b)) r1) as L3. destruct (negb (value_stop q)); cbn [List.length] in *; lia.
Qed.

Lemma attrs_total k : forall pos s m, (List.length s < k)%nat -> match attrs k pos s m with AFuel => False | AGt r _ => (List.length r < List.length s)%nat | ANo _ => True end.
Proof.
  induction k as [|k IH]; intros pos s m L; [lia|]. cbn [attrs]. destruct s as [|ch t]; [exact Logic.I|]. cbn [List.length] in L.
  destruct (negb (pos <? cap)); [exact Logic.I|]. destruct (ch =? 62) eqn:E1; [cbn [List.length]; lia|]. destruct (ch =? 60) eqn:E2; [exact Logic.I|].
  destruct (ws ch || (ch =? 47)) eqn:E3.
  - specialize (IH (pos + 1) t m ltac:(lia)). destruct (attrs k (pos + 1) t m); cbn [List.length]; [lia|exact Logic.I|exact IH].
  - destruct (attr_one (ch :: t)) as [n v r|un] eqn:E; [|exact Logic.I]. pose proof (attr_one_less ch t n v r E3 E1 E2 E) as L2. cbn [List.length] in L2.
    specialize (IH (moved pos (ch :: t) r) r (set_meta m n v) ltac:(lia)). destruct (attrs k _ r _); cbn [List.length]; [lia|exact Logic.I|exact IH].
Qed.
Lemma skip_tag_len s : forall pos nc q p' n' r, skip_tag pos nc q s = (p', n', r) -> (List.length r <= List.length s)%nat /\ (pos < cap -> nc < max_non_comment -> s <> [] -> (List.length r < List.length s)%nat).
Proof.
  induction s as [|ch t IH]; cbn [skip_tag]; intros pos nc q p' n' r H.
  - assert (r = []) as -> by congruence. split; [lia|]. intros _ _ Q. contradiction.
  - destruct ((pos <? cap) && (nc <? max_non_comment)) eqn:E.
    + assert (G : forall q', skip_tag (pos + 1) (nc + 1) q' t = (p', n', r) -> (List.length r <= List.length (ch :: t))%nat /\ (pos < cap -> nc < max_non_comment -> ch :: t <> [] -> (List.length r < List.length (ch :: t))%nat)).
      { intros q' H'. destruct (IH _ _ _ _ _ _ H') as [L _]. cbn [List.length]. split; intros; lia. }
      destruct q as [q|]; [exact (G _ H)|]. destruct ((ch =? 34) || (ch =? 39)); [exact (G _ H)|]. destruct (ch =? 62); [|exact (G _ H)].
      assert (r = t) as -> by congruence. cbn [List.length]. split; intros; lia.
    + assert (r = ch :: t) as -> by congruence. split; [lia|]. intros; lia.
Qed.
Lemma prescan_total k : forall pos nc s, (List.length s < k)%nat -> exists e, prescan k pos nc s = Found e.
Proof.
  induction k as [|k IH]; intros pos nc s L; [lia|]. cbn [prescan]. destruct s as [|c t]; [exists None; reflexivity|]. cbn [List.length] in L.
  destruct ((pos <? cap) && (nc <? max_non_comment)) eqn:W; cbn [negb]; [|exists None; reflexivity].
  destruct (negb (c =? 60)) eqn:E; [apply IH; lia|].
  destruct (starts (u "!--") t) eqn:St.
  { destruct (find (u "-->") (skipn 3 t)) as [e|]; [|exists None; reflexivity]. apply IH. rewrite skipn_length. lia. }
  destruct t as [|d t2]; [apply IH; cbn [List.length]; lia|]. remember (d :: t2) as t eqn:Et.
  assert (SK : forall q, exists e, (let '(pos0, nc0, r) := skip_tag pos nc q (c :: t) in prescan k pos0 nc0 r) = Found e).
  { intros q. destruct (skip_tag pos nc q (c :: t)) as [[p' n'] r] eqn:ST. destruct (skip_tag_len _ _ _ _ _ _ _ ST) as [_ G]. apply IH. specialize (G ltac:(lia) ltac:(lia) ltac:(discriminate)). cbn [List.length] in G. lia. }
  destruct (d =? 47); [apply SK|]. destruct (negb (alpha_byte d)); [apply IH; lia|].
  destruct (negb (str_eqb (blower (take_while alpha_byte t)) (u "meta"))); [apply SK|].
  pose proof (dw_len alpha_byte t) as L1. set (s1 := drop_while alpha_byte t) in *.
  pose proof (attrs_total (S (List.length s1)) (moved pos (c :: t) s1) s1 (Metas None None None) ltac:(lia)) as A.
  destruct (attrs (S (List.length s1)) _ s1 _) as [r m|un|]; [|destruct un|contradiction].
  - destruct (declared m) as [e|]; [exists (Some e); reflexivity|]. apply IH. lia.
  - apply IH. rewrite skipn_length. lia.
  - apply IH. lia.
Qed.

(* ---------- the window ---------- *)
Lemma skip_tag_trunc b s : forall pos nc q p' n' r, pos + N.of_nat (List.length s) = cap -> skip_tag pos nc q s = (p', n', r) ->
  skip_tag pos nc q (s ++ b) = (p', n', r ++ b) /\ p' + N.of_nat (List.length r) = cap.
Proof.
  induction s as [|ch t IH]; cbn [skip_tag app List.length]; intros pos nc q p' n' r P H.
  - assert (p' = pos /\ n' = nc /\ r = []) as (-> & -> & ->) by (repeat split; congruence). split; [|exact P]. cbn [List.length app] in *.
    destruct b as [|x b]; [reflexivity|]. cbn [skip_tag]. assert (pos <? cap = false) as -> by lia. reflexivity.
  - destruct ((pos <? cap) && (nc <? max_non_comment)).
    + assert (P' : pos + 1 + N.of_nat (List.length t) = cap) by lia.
      destruct q as [q|]; [exact (IH _ _ _ _ _ _ P' H)|]. destruct ((ch =? 34) || (ch =? 39)); [exact (IH _ _ _ _ _ _ P' H)|].
      destruct (ch =? 62); [|exact (IH _ _ _ _ _ _ P' H)]. assert (p' = pos + 1 /\ n' = nc + 1 /\ r = t) as (-> & -> & ->) by (repeat split; congruence). split; [reflexivity|exact P'].
    + assert (p' = pos /\ n' = nc /\ r = ch :: t) as (-> & -> & ->) by (repeat split; congruence). split; [reflexivity|]. cbn [List.length]. lia.
Qed.
Lemma attrs_capped k pos s m : cap <= pos -> (k <> O)%nat -> attrs k pos s m = ANo false.
Proof. intros L K. destruct k; [contradiction|]. cbn [attrs]. destruct s; [reflexivity|]. assert (pos <? cap = false) as -> by lia. reflexivity. Qed.
Lemma prescan_capped k pos nc s : cap <= pos -> (k <> O)%nat -> prescan k pos nc s = Found None.
Proof. intros L K. destruct k; [contradiction|]. cbn [prescan]. destruct s; [reflexivity|]. assert (pos <? cap = false) as -> by lia. reflexivity. Qed.
Lemma moved_cap pos (s r b : str) : pos + N.of_nat (List.length s) = cap -> (List.length r <= List.length b)%nat -> cap <= moved pos (s ++ b) r.
Proof. unfold moved. rewrite app_length. lia. Qed.
(* same verdict on the truncated tag *)
Definition same_tag (b : str) (x y : ares) : Prop :=
  match x, y with AGt r m, AGt r' m' => r' = r ++ b /\ m' = m | ANo _, ANo _ => True | _, _ => False end.
Lemma attrs_trunc b k : forall k' pos s m, (List.length s < k)%nat -> (List.length (s ++ b) < k')%nat -> pos + N.of_nat (List.length s) = cap ->
  same_tag b (attrs k pos s m) (attrs k' pos (s ++ b) m).
Proof.
  induction k as [|k IH]; intros k' pos s m L L' P; [lia|]. destruct k' as [|k']; [lia|].
  destruct s as [|ch t].
  { rewrite (attrs_capped (S k') pos ([] ++ b)) by (cbn [List.length] in P; lia). rewrite (attrs_capped (S k)) by (cbn [List.length] in P; lia). exact Logic.I. }
  cbn [app List.length] in L, L', P. cbn [attrs app]. assert (negb (pos <? cap) = false) as -> by lia.
  destruct (ch =? 62) eqn:E1; [split; reflexivity|]. destruct (ch =? 60) eqn:E2; [exact Logic.I|].
  destruct (ws ch || (ch =? 47)) eqn:E3; [apply IH; lia|].
  change (ch :: t ++ b)%list with ((ch :: t) ++ b)%list.
  assert (NIL : (match attr_one (ch :: t) with Stop _ => True | Attr _ _ r => r = [] end) -> exists un,
     match attr_one ((ch :: t) ++ b) with Attr name value r => attrs k' (moved pos ((ch :: t) ++ b) r) r (set_meta m name value) | Stop un => ANo un end = ANo un).
  { intros H. pose proof (attr_one_nil _ b H) as G. destruct (attr_one ((ch :: t) ++ b)) as [n v r|un]; [|exists un; reflexivity]. exists false. apply attrs_capped; [apply moved_cap; [exact P|exact G]|]. rewrite app_length in L'. lia. }
  destruct (attr_one (ch :: t)) as [n v [|x r]|un] eqn:E.
  - destruct (NIL eq_refl) as [un ->]. rewrite attrs_capped; [exact Logic.I| |lia]. unfold moved. cbn [List.length]. lia.
  - rewrite (attr_one_cons _ b _ _ _ _ E). pose proof (attr_one_less _ _ _ _ _ E3 E1 E2 E) as LE. cbn [List.length] in LE.
    change (x :: r ++ b)%list with ((x :: r) ++ b)%list.
    assert (moved pos ((ch :: t) ++ b) ((x :: r) ++ b) = moved pos (ch :: t) (x :: r)) as -> by (unfold moved; rewrite !app_length; f_equal; f_equal; lia).
    rewrite app_length in L'. apply IH.
    + cbn [List.length]. lia.
    + rewrite app_length. cbn [List.length]. lia.
    + unfold moved. cbn [List.length] in *. lia.
  - destruct (NIL Logic.I) as [un' ->]. exact Logic.I.
Qed.
(* without a '>' in the window nothing is found *)
Lemma attr_one_suffix s n v r : attr_one s = Attr n v r -> exists a, s = a ++ r.
Proof.
  unfold attr_one, skip. set (p := fun b => negb (name_stop b)). intros H.
  pose proof (drop_while_app p s) as A1. set (s0 := drop_while p s) in *. pose proof (drop_while_app ws s0) as A2. set (s1 := drop_while ws s0) in *.
  assert (B : exists a, s = a ++ s1) by (rewrite A1, A2; eexists; rewrite app_assoc; reflexivity). destruct B as [a B]. clearbody s1. clear A1 A2.
  destruct s1 as [|e t]; [apply Attr_inj in H; subst r; exists a; exact B|].
  destruct (e =? 61); [|apply Attr_inj in H; subst r; exists a; exact B].
  pose proof (drop_while_app ws t) as A3. destruct (drop_while ws t) as [|q r1]; [discriminate H|].
  destruct ((q =? 34) || (q =? 39)).
  - destruct (find_char q r1) as [k|]; [|discriminate H]. apply Attr_inj in H; subst r.
    exists (a ++ e :: take_while ws t ++ q :: firstn (S k) r1). rewrite B, A3 at 1. rewrite <- (firstn_skipn (S k) r1) at 1. rewrite <- !app_assoc. cbn [app]. rewrite <- !app_assoc. cbn [app]. rewrite <- ?app_assoc. reflexivity.
  - apply Attr_inj in H; subst r. pose proof (drop_while_app (fun b => negb (value_stop b)) (q :: r1)) as A4.
    exists (a ++ e :: take_while ws t ++ take_while (fun b => negb (value_stop b)) (q :: r1)). rewrite B, A3 at 1. rewrite A4 at 1. rewrite <- !app_assoc. cbn [app]. rewrite <- !app_assoc. reflexivity.
Qed.
Lemma attrs_no_gt k : forall pos s m, (List.length s < k)%nat -> (~ In 62 s) -> exists un, attrs k pos s m = ANo un.
Proof.
  induction k as [|k IH]; intros pos s m L NG; [lia|]. cbn [attrs]. destruct s as [|ch t]; [exists false; reflexivity|]. cbn [List.length] in L.
  destruct (negb (pos <? cap)); [exists false; reflexivity|]. destruct (ch =? 62) eqn:E1; [exfalso; apply NG; left; lia|]. destruct (ch =? 60) eqn:E2; [exists false; reflexivity|].
  destruct (ws ch || (ch =? 47)) eqn:E3; [apply IH; [lia|intros Q; apply NG; right; exact Q]|].
  destruct (attr_one (ch :: t)) as [n v r|un] eqn:E; [|exists un; reflexivity]. pose proof (attr_one_less _ _ _ _ _ E3 E1 E2 E) as LE. cbn [List.length] in LE.
  destruct (attr_one_suffix _ _ _ _ E) as [a A]. apply IH; [lia|]. intros Q. apply NG. rewrite A. apply in_or_app. right. exact Q.
Qed.
Lemma skip_tag_suffix s : forall pos nc q p' n' r, skip_tag pos nc q s = (p', n', r) -> exists a, s = a ++ r.
Proof.
  induction s as [|ch t IH]; cbn [skip_tag]; intros pos nc q p' n' r H; [assert (r = []) as -> by congruence; exists []; reflexivity|].
  destruct ((pos <? cap) && (nc <? max_non_comment)); [|assert (r = ch :: t) as -> by congruence; exists []; reflexivity].
  assert (G : forall q', skip_tag (pos + 1) (nc + 1) q' t = (p', n', r) -> exists a, ch :: t = a ++ r).
  { intros q' H'. destruct (IH _ _ _ _ _ _ H') as [a ->]. exists (ch :: a). reflexivity. }
  destruct q as [q|]; [exact (G _ H)|]. destruct ((ch =? 34) || (ch =? 39)); [exact (G _ H)|]. destruct (ch =? 62); [|exact (G _ H)].
  assert (r = t) as -> by congruence. exists [ch]. reflexivity.
Qed.
Lemma attrs_no_gt_trunc b k' : forall pos s m, (List.length (s ++ b) < k')%nat -> pos + N.of_nat (List.length s) = cap -> ~ In 62 s -> exists un, attrs k' pos (s ++ b) m = ANo un.
Proof.
  intros pos s m L P NG. pose proof (attrs_trunc b (S (List.length s)) k' pos s m ltac:(lia) L P) as G.
  destruct (attrs_no_gt (S (List.length s)) pos s m ltac:(lia) NG) as [un E]. rewrite E in G. destruct (attrs k' pos (s ++ b) m) as [| un' |]; [contradiction|exists un'; reflexivity|contradiction].
Qed.
Lemma alpha_not_gt c : alpha_byte c = true -> c <> 62.
Proof. intros H ->. discriminate H. Qed.
Lemma prescan_no_gt b k : forall pos nc s, (List.length (s ++ b) < k)%nat -> pos + N.of_nat (List.length s) = cap -> ~ In 62 s -> prescan k pos nc (s ++ b) = Found None.
Proof.
  induction k as [|k IH]; intros pos nc s L P NG; [lia|]. destruct s as [|c t]; [apply prescan_capped; [cbn [List.length] in P; lia|lia]|].
  cbn [prescan app List.length] in *. destruct ((pos <? cap) && (nc <? max_non_comment)) eqn:W; cbn [negb]; [|reflexivity].
  assert (NGt : ~ In 62 t) by (intros Q; apply NG; right; exact Q).
  destruct (negb (c =? 60)) eqn:E; [apply IH; [lia|lia|exact NGt]|].
  destruct (starts (u "!--") (t ++ b)) eqn:St.
  { destruct (find (u "-->") (skipn 3 (t ++ b))) as [e|] eqn:F; [|reflexivity].
    assert (k <> O) by (rewrite app_length in L; destruct t; [|cbn [List.length] in L; lia]; destruct b; [discriminate St|cbn [List.length] in L; lia]).
    apply prescan_capped; [|assumption]. apply find_Some in F. destruct F as (x & y & Fx & Fl & _).
    unfold moved. cbn [List.length]. rewrite skipn_length, app_length.
    (* the '>' of the terminator is not in t *)
    assert (Z : nth_error (t ++ b) (3 + e + 2)%nat = Some 62).
    { rewrite <- (firstn_skipn 3 (t ++ b)). assert (L3 : List.length (firstn 3 (t ++ b)) = 3%nat).
      { apply starts_spec in St. destruct St as [z ->]. reflexivity. }
      rewrite nth_error_app2 by lia. rewrite L3, Fx. rewrite nth_error_app2 by lia. replace (3 + e + 2 - 3 - List.length x)%nat with 2%nat by lia. reflexivity. }
    destruct (Nat.lt_ge_cases (3 + e + 2) (List.length t)) as [Lt|Ge].
    - exfalso. apply NGt. rewrite nth_error_app1 in Z by lia. exact (nth_error_In _ _ Z).
    - lia. }
  destruct (t ++ b) as [|d r2] eqn:TB; [destruct t; [|discriminate TB]; cbn [app] in TB; subst b; apply prescan_capped; cbn [List.length] in *; [lia|lia]|].
  assert (TBne : t ++ b <> []) by (rewrite TB; discriminate). rewrite <- TB in *. clear TB.
  assert (SK : forall q, (let '(pos0, nc0, r) := skip_tag pos nc q (c :: t ++ b) in prescan k pos0 nc0 r) = Found None).
  { intros q. destruct (skip_tag pos nc q (c :: t)) as [[p' n'] r] eqn:ST. destruct (skip_tag_trunc b (c :: t) pos nc q p' n' r ltac:(cbn [List.length]; lia) ST) as [E1 E2].
    change (c :: t ++ b)%list with ((c :: t) ++ b)%list. rewrite E1. destruct (skip_tag_suffix _ _ _ _ _ _ _ ST) as [a A]. destruct (skip_tag_len _ _ _ _ _ _ _ ST) as [_ G]. specialize (G ltac:(lia) ltac:(lia) ltac:(discriminate)). cbn [List.length] in G.
    apply IH; [rewrite app_length in *; lia|exact E2|]. intros Q. apply NG. rewrite A. apply in_or_app. right. exact Q. }
  destruct (d =? 47); [apply SK|]. destruct (negb (alpha_byte d)); [apply IH; [lia|lia|exact NGt]|].
  destruct (negb (str_eqb (blower (take_while alpha_byte (t ++ b))) (u "meta"))); [apply SK|].
  assert (A : exists un, attrs (S (List.length (drop_while alpha_byte (t ++ b)))) (moved pos (c :: t ++ b) (drop_while alpha_byte (t ++ b))) (drop_while alpha_byte (t ++ b)) (Metas None None None) = ANo un).
  { destruct (drop_while alpha_byte t) as [|x r] eqn:D.
    - rewrite (dw_app_nil _ _ _ D). exists false. apply attrs_capped; [|lia]. apply (moved_cap pos (c :: t)); [cbn [List.length]; lia|apply dw_len].
    - destruct (dw_app_cons _ _ b _ _ D) as [-> _]. change (x :: r ++ b)%list with ((x :: r) ++ b)%list. apply attrs_no_gt_trunc; [lia| |].
      + pose proof (dw_len alpha_byte t) as DL. rewrite D in DL. unfold moved. cbn [List.length app] in *. rewrite !app_length. lia.
      + intros Q. apply NGt. rewrite (drop_while_app alpha_byte t), D. apply in_or_app. right. exact Q. }
  destruct A as [un ->]. destruct un.
  - destruct t as [|y t].
    + apply prescan_capped; [cbn [List.length] in P; lia|]. cbn [app List.length] in *. destruct b; [|cbn [List.length] in L; lia]. contradiction.
    + cbn [app skipn]. apply IH; [cbn [app List.length] in L; lia|cbn [List.length] in P; lia|]. intros Q. apply NGt. right. exact Q.
  - apply IH; [lia|lia|exact NGt].
Qed.
Lemma prescan_mono k : forall pos nc s e, prescan k pos nc s = Found e -> prescan (S k) pos nc s = Found e.
Proof.
  induction k as [|k IH]; intros pos nc s e H; [discriminate H|]. remember (S k) as k1. rewrite Heqk1 in H. cbn [prescan] in *.
  destruct s as [|c t]; [exact H|]. subst k1.
  destruct (negb ((pos <? cap) && (nc <? max_non_comment))); [exact H|]. destruct (negb (c =? 60)); [apply IH; exact H|].
  destruct (starts (u "!--") t).
  { destruct (find (u "-->") (skipn 3 t)); [apply IH; exact H|exact H]. }
  destruct t as [|d t2]; [apply IH; exact H|].
  destruct (d =? 47); [destruct (skip_tag pos nc None _) as [[p' n'] r]; apply IH; exact H|].
  destruct (negb (alpha_byte d)); [apply IH; exact H|].
  destruct (negb (str_eqb _ _)); [destruct (skip_tag pos nc None _) as [[p' n'] r]; apply IH; exact H|].
  cbv zeta in *. destruct (attrs _ _ _ _) as [r m|un|]; [destruct (declared m); [exact H|apply IH; exact H]|destruct un; apply IH; exact H|discriminate H].
Qed.
Lemma prescan_fuel k k' pos nc s : (List.length s < k)%nat -> (k <= k')%nat -> prescan k' pos nc s = prescan k pos nc s.
Proof.
  intros L LE. destruct (prescan_total k pos nc s L) as [e E]. rewrite E. induction LE; [exact E|]. apply prescan_mono. exact IHLE.
Qed.
Lemma prescan_step k pos nc d t : d <> 60 -> (S (List.length t) < k)%nat -> prescan k (pos + 1) (nc + 1) (d :: t) = prescan k (pos + 1 + 1) (nc + 1 + 1) t.
Proof.
  intros D L. destruct k as [|k]; [lia|]. assert (E : prescan (S k) (pos + 1 + 1) (nc + 1 + 1) t = prescan k (pos + 1 + 1) (nc + 1 + 1) t) by (apply prescan_fuel; lia).
  rewrite E. cbn [prescan]. destruct (N.eqb_spec d 60) as [Q|_]; [contradiction|]. cbn [negb].
  destruct ((pos + 1 <? cap) && (nc + 1 <? max_non_comment)) eqn:W; cbn [negb]; [reflexivity|].
  destruct k as [|k]; [lia|]. cbn [prescan]. destruct t; [reflexivity|].
  assert ((pos + 1 + 1 <? cap) && (nc + 1 + 1 <? max_non_comment) = false) as -> by lia. reflexivity.
Qed.
Lemma starts_app_true p s b : starts p s = true -> starts p (s ++ b) = true.
Proof. intros H. apply starts_spec in H. destruct H as [t ->]. apply starts_spec. exists (t ++ b). rewrite app_assoc. reflexivity. Qed.
Lemma find_app_some n s b e : find n s = Some e -> find n (s ++ b) = Some e /\ (e + List.length n <= List.length s)%nat.
Proof.
  revert e. induction s as [|c s IH]; intros e; cbn [find app].
  - destruct (starts n []) eqn:E; [|discriminate]. intros H. injection H as <-. destruct n; [|discriminate E]. destruct b; split; try reflexivity; cbn; lia.
  - destruct (starts n (c :: s)) eqn:E.
    + intros H. injection H as <-. change (c :: s ++ b)%list with ((c :: s) ++ b)%list. rewrite (starts_app_true _ _ b E). split; [reflexivity|]. apply starts_spec in E. destruct E as [t E]. rewrite E, app_length. lia.
    + destruct (find n s) as [j|] eqn:F; [|discriminate]. intros H. injection H as <-. destruct (IH j eq_refl) as [G L]. rewrite G.
      destruct (starts n (c :: s ++ b)) eqn:E2; [|split; [reflexivity|cbn [List.length]; lia]]. exfalso.
      (* n has at most |s| characters *)
      clear IH G F. remember (c :: s) as s0 eqn:Q0. assert (LL : (List.length n <= List.length s0)%nat) by (subst s0; cbn [List.length]; lia). change (c :: s ++ b)%list with ((c :: s) ++ b)%list in E2. rewrite <- Q0 in E2. clear Q0 L. revert s0 LL E E2.
      induction n as [|x n IHn]; intros s0 LL E E2; [discriminate E|]. destruct s0 as [|y s0]; [cbn [List.length] in LL; lia|]. cbn [starts app List.length] in *. destruct (x =? y); [|discriminate E2]. cbn [andb] in *. apply (IHn s0); [lia|exact E|exact E2].
Qed.
Lemma find_app_none n s b e : find n s = None -> find n (s ++ b) = Some e -> (List.length s < e + List.length n)%nat.
Proof.
  intros H1 H2. destruct (Nat.lt_ge_cases (List.length s) (e + List.length n)) as [|G]; [assumption|exfalso].
  apply find_Some in H2. destruct H2 as (x & y & E & L & _). rewrite find_None in H1.
  assert (P : firstn (e + List.length n) (s ++ b) = x ++ n).
  { rewrite E, app_assoc. rewrite firstn_app. rewrite firstn_all2 by (rewrite app_length; lia). replace (e + List.length n - List.length (x ++ n))%nat with O by (rewrite app_length; lia). apply app_nil_r. }
  rewrite firstn_app in P. replace (e + List.length n - List.length s)%nat with O in P by lia. cbn [firstn] in P. rewrite app_nil_r in P.
  apply (H1 x (skipn (e + List.length n) s)). rewrite app_assoc, <- P. symmetry. apply firstn_skipn.
Qed.
Lemma prescan_trunc b k : forall k' pos nc s, (List.length s < k)%nat -> (List.length (s ++ b) < k')%nat -> pos + N.of_nat (List.length s) = cap ->
  prescan k' pos nc (s ++ b) = prescan k pos nc s.
Proof.
  induction k as [|k IH]; intros k' pos nc s L L' P; [lia|]. destruct k' as [|k']; [lia|].
  destruct (in_dec N.eq_dec 62 s) as [HG|NG].
  2: { rewrite (prescan_no_gt b (S k') pos nc s L' P NG). rewrite <- (app_nil_r s) at 1. symmetry. apply prescan_no_gt; [rewrite app_nil_r; exact L|exact P|exact NG]. }
  destruct s as [|c t]; [contradiction|]. cbn [List.length app] in L, L', P.
  cbn [prescan app]. destruct (negb ((pos <? cap) && (nc <? max_non_comment))) eqn:W; [reflexivity|].
  destruct (negb (c =? 60)) eqn:E; [apply IH; lia|].
  assert (HGt : In 62 t) by (destruct HG as [HG|HG]; [lia|exact HG]).
  assert (St : starts (u "!--") (t ++ b) = starts (u "!--") t).
  { destruct (starts (u "!--") t) eqn:S1; [apply starts_app_true; exact S1|]. destruct (starts (u "!--") (t ++ b)) eqn:S2; [|reflexivity]. exfalso.
    change (u "!--") with [33; 45; 45] in *. destruct t as [|x [|y [|z t]]]; cbn [starts app] in *.
    - destruct HGt.
    - destruct HGt as [->|[]]. discriminate S2.
    - destruct HGt as [->|[->|[]]]; [discriminate S2|]. rewrite andb_false_r in S2. discriminate S2.
    - congruence. }
  rewrite St. destruct (starts (u "!--") t) eqn:S1.
  { pose proof S1 as S1'. apply starts_spec in S1'. destruct S1' as [z Z]. assert (L3 : List.length t = (3 + List.length z)%nat) by (rewrite Z; reflexivity).
    assert (SK3 : skipn 3 (t ++ b) = skipn 3 t ++ b) by (rewrite skipn_app; replace (3 - List.length t)%nat with O by lia; reflexivity). rewrite SK3.
    destruct (find (u "-->") (skipn 3 t)) as [e|] eqn:F.
    - destruct (find_app_some _ _ b _ F) as [-> Le]. rewrite skipn_length in Le. change (List.length (u "-->")) with 3%nat in Le.
      assert (skipn (3 + e + 3) (t ++ b) = skipn (3 + e + 3) t ++ b) as -> by (rewrite skipn_app; replace (3 + e + 3 - List.length t)%nat with O by lia; reflexivity).
      assert (moved pos (c :: t ++ b) (skipn (3 + e + 3) t ++ b) = moved pos (c :: t) (skipn (3 + e + 3) t)) as -> by (unfold moved; cbn [List.length]; rewrite !app_length; f_equal; f_equal; lia).
      apply IH; [rewrite skipn_length; lia|rewrite app_length, skipn_length; rewrite app_length in L'; lia|unfold moved; cbn [List.length]; rewrite skipn_length; lia].
    - destruct (find (u "-->") (skipn 3 t ++ b)) as [e|] eqn:F2; [|reflexivity]. pose proof (find_app_none _ _ b _ F F2) as G. rewrite skipn_length in G. change (List.length (u "-->")) with 3%nat in G.
      apply prescan_capped; [|rewrite app_length in L'; lia]. unfold moved. cbn [List.length]. rewrite skipn_length, app_length. lia. }
  destruct t as [|d t2]; [destruct HGt|]. cbn [app]. change (d :: t2 ++ b)%list with ((d :: t2) ++ b)%list. remember (d :: t2) as t eqn:Et.
  assert (SK : forall q, (let '(pos0, nc0, r) := skip_tag pos nc q (c :: t ++ b) in prescan k' pos0 nc0 r) = (let '(pos0, nc0, r) := skip_tag pos nc q (c :: t) in prescan k pos0 nc0 r)).
  { intros q. destruct (skip_tag pos nc q (c :: t)) as [[p' n'] r] eqn:ST. destruct (skip_tag_trunc b (c :: t) pos nc q p' n' r ltac:(cbn [List.length]; lia) ST) as [E1 E2].
    change (c :: t ++ b)%list with ((c :: t) ++ b)%list. rewrite E1. destruct (skip_tag_len _ _ _ _ _ _ _ ST) as [_ G]. specialize (G ltac:(lia) ltac:(lia) ltac:(discriminate)). cbn [List.length] in G.
    apply IH; [lia|rewrite app_length in *; lia|exact E2]. }
  destruct (d =? 47); [apply SK|]. destruct (negb (alpha_byte d)) eqn:AL; [apply IH; lia|].
  destruct (drop_while alpha_byte t) as [|x r] eqn:D.
  { exfalso. rewrite (drop_while_app alpha_byte t), D, app_nil_r in HGt. pose proof (take_while_all alpha_byte t) as A. rewrite forallb_forall in A. specialize (A _ HGt). discriminate A. }
  destruct (dw_app_cons _ _ b _ _ D) as [-> ->]. change (x :: r ++ b)%list with ((x :: r) ++ b)%list.
  destruct (negb (str_eqb (blower (take_while alpha_byte t)) (u "meta"))); [apply SK|]. cbv zeta.
  pose proof (dw_len alpha_byte t) as DL. rewrite D in DL.
  assert (MV : forall r0, moved pos (c :: t ++ b) (r0 ++ b) = moved pos (c :: t) r0) by (intros r0; unfold moved; cbn [List.length]; rewrite !app_length; f_equal; f_equal; lia).
  rewrite MV.
  assert (PM : moved pos (c :: t) (x :: r) + N.of_nat (List.length (x :: r)) = cap) by (unfold moved; cbn [List.length] in *; lia).
  pose proof (attrs_trunc b (S (List.length (x :: r))) (S (List.length ((x :: r) ++ b))) _ (x :: r) (Metas None None None) ltac:(lia) ltac:(lia) PM) as A.
  pose proof (attrs_total (S (List.length (x :: r))) (moved pos (c :: t) (x :: r)) (x :: r) (Metas None None None) ltac:(lia)) as A2.
  destruct (attrs (S (List.length (x :: r))) _ (x :: r) _) as [r1 m1|un1|]; destruct (attrs (S (List.length ((x :: r) ++ b))) _ ((x :: r) ++ b) _) as [r2 m2|un2|]; cbn [same_tag] in A; try contradiction.
  - destruct A as [-> ->]. destruct (declared m1); [reflexivity|]. rewrite MV.
    assert ((List.length (c :: t ++ b) - List.length (r1 ++ b))%nat = (List.length (c :: t) - List.length r1)%nat) as -> by (cbn [List.length]; rewrite !app_length; lia).
    apply IH; [lia|rewrite app_length in *; lia|unfold moved; cbn [List.length] in *; lia].
  - assert (D60 : d <> 60) by (intros ->; discriminate AL).
    assert (Q1 : prescan k (pos + 1 + 1) (nc + 1 + 1) (skipn 1 t) = prescan k (pos + 1) (nc + 1) t).
    { subst t. cbn [skipn]. symmetry. apply prescan_step; [exact D60|cbn [List.length] in L; lia]. }
    assert (Q2 : prescan k' (pos + 1 + 1) (nc + 1 + 1) (skipn 1 (t ++ b)) = prescan k' (pos + 1) (nc + 1) (t ++ b)).
    { subst t. cbn [skipn app]. symmetry. apply prescan_step; [exact D60|cbn [List.length app] in L'; lia]. }
    destruct un1, un2; rewrite ?Q1, ?Q2; apply IH; lia.
Qed.
Lemma prescan_all_window d : prescan_all d = prescan_all (firstn (N.to_nat cap) d).
Proof.
  unfold prescan_all. destruct (Nat.le_gt_cases (List.length d) (N.to_nat cap)) as [L|L]; [rewrite firstn_all2 by exact L; reflexivity|].
  assert (E : d = firstn (N.to_nat cap) d ++ skipn (N.to_nat cap) d) by (symmetry; apply firstn_skipn).
  assert (G : N.of_nat (List.length (firstn (N.to_nat cap) d)) = cap) by (rewrite firstn_length; lia).
  set (a := firstn (N.to_nat cap) d) in *. set (b := skipn (N.to_nat cap) d) in *. clearbody a b. subst d. apply prescan_trunc; lia.
Qed.
