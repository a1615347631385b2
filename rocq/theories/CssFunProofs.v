(* Which functions the output of the style sanitizer contains. *)
From Coq Require Import Lia ZifyBool ZifyN ZifyNat Wf_nat.
From Verif Require Import Str StrFacts ListFacts CssSpec CssTokFacts UrlModel UrlListProofs CssModel CssProofs.
Open Scope N_scope.

(* ---- alignment of v.lower() with v ---- *)
Lemma lower_c_one c : c <> 304 -> exists d, lower_c c = [d] /\ forall x, In x (u "url(") -> (x =? d) = (x =? alow_c c).
Proof.
  intros H. destruct (N.lt_ge_cases c 128) as [Hc|Hc].
  - exists (alow_c c). rewrite lower_c_ascii by exact Hc. split; reflexivity.
  - destruct (N.eq_dec c 8490) as [->|Hk].
    + exists 107. rewrite lower_c_kelvin. split; [reflexivity|]. intros x Hx. replace (alow_c 8490) with 8490 by reflexivity.
      assert (x <> 107 /\ x <> 8490) by (revert Hx; cbn; lia). lia.
    + destruct (lower_c_nonascii c Hc H Hk) as (d & Ed & Hd). exists d. split; [exact Ed|]. intros x Hx.
      assert (x < 128) by (revert Hx; cbn; lia). replace (alow_c c) with c by (unfold alow_c, is_upper_ascii; replace (c <=? 90) with false by lia; rewrite andb_false_r; reflexivity). lia.
Qed.
Lemma starts_lower p s : ~ In 304 s -> incl p (u "url(") -> starts p (lower s) = starts p (alow s).
Proof.
  revert s. induction p as [|x p IH]; intros s Hs Hp; [destruct (lower s), (alow s); reflexivity|].
  destruct s as [|c s]; [reflexivity|]. cbn [lower flat_map alow map].
  destruct (lower_c_one c) as (d & -> & Hd); [intros ->; apply Hs; left; reflexivity|]. cbn [app starts]. rewrite (Hd x) by (apply Hp; left; reflexivity).
  f_equal. apply IH; [intros H; apply Hs; right; exact H|intros y Hy; apply Hp; right; exact Hy].
Qed.
Lemma find_lower s : ~ In 304 s -> find (u "url(") (lower s) = find (u "url(") (alow s).
Proof.
  induction s as [|c s IH]; intros Hs; [reflexivity|]. pose proof (starts_lower (u "url(") (c :: s) Hs (incl_refl _)) as E.
  destruct (lower_c_one c) as (d & Ed & _); [intros ->; apply Hs; left; reflexivity|].
  assert (El : lower (c :: s) = d :: lower s) by (cbn [lower flat_map]; rewrite Ed; reflexivity).
  rewrite El in *. change (alow (c :: s)) with (alow_c c :: alow s) in *. cbn [find]. rewrite E, IH; [reflexivity|]. intros H; apply Hs; right; exact H.
Qed.
Lemma skipn_lower s : ~ In 304 s -> forall i, skipn i (lower s) = lower (skipn i s).
Proof.
  induction s as [|c s IH]; intros Hs i; [rewrite !skipn_nil; reflexivity|]. destruct i as [|i]; [reflexivity|].
  destruct (lower_c_one c) as (d & Ed & _); [intros ->; apply Hs; left; reflexivity|].
  cbn [lower flat_map skipn]. rewrite Ed. cbn [app skipn]. apply IH. intros H; apply Hs; right; exact H.
Qed.
Lemma alow_skipn i s : alow (skipn i s) = skipn i (alow s).
Proof. revert i; induction s as [|c s IH]; intros i; [rewrite !skipn_nil; reflexivity|]. destruct i; [reflexivity|]. cbn [skipn alow map]. apply IH. Qed.
Lemma alow_app a b : alow (a ++ b)%list = (alow a ++ alow b)%list. Proof. apply map_app. Qed.

(* ---- shape of a rewritten value ---- *)
Definition no_url (s : str) : Prop := ~ infix (u "url(") (alow s).
Inductive rewritten (san : str -> outcome) (v0 : str) : str -> Prop :=
| rw_end seg : infix seg v0 -> no_url seg -> rewritten san v0 seg
| rw_call seg raw s w : infix seg v0 -> no_url seg -> san raw = Keep s -> plain_url s -> rewritten san v0 w -> rewritten san v0 (seg ++ url_call s ++ w)%list.
Lemma slice_infix (s : str) i j : infix (slice s i j) s.
Proof. apply (infix_trans _ (skipn i s)); [|apply skipn_infix]. exists [], (skipn (j - i) (skipn i s)). symmetry; apply firstn_skipn. Qed.
Lemma find_first needle s n : find needle s = Some n -> firstn n s = firstn n s /\ ~ infix needle (firstn n s) \/ needle = [].
Proof.
  intros H. destruct needle as [|x needle]; [right; reflexivity|left]. split; [reflexivity|].
  revert n H. induction s as [|c s IH]; intros n H.
  - cbn in H. discriminate H.
  - cbn [find] in H. destruct (starts (x :: needle) (c :: s)) eqn:E.
    + assert (n = 0%nat) as -> by congruence. intros (a & b & Ei). destruct a; discriminate Ei.
    + destruct (find (x :: needle) s) as [m|] eqn:Em; [|discriminate H]. cbn in H. assert (n = S m) as -> by congruence. cbn [firstn].
      intros (a & b & Ei). destruct a as [|a0 a].
      * assert (starts (x :: needle) (c :: s) = true); [|congruence]. apply starts_spec. exists (b ++ skipn m s)%list.
        rewrite <- (firstn_skipn m s) at 1. change (c :: firstn m s ++ skipn m s)%list with ((c :: firstn m s) ++ skipn m s)%list. rewrite Ei. cbn [app]. rewrite <- app_assoc. reflexivity.
      * apply (IH m eq_refl). exists a, b. injection Ei as _ Ei. exact Ei.
Qed.
Lemma alow_firstn n s : alow (firstn n s) = firstn n (alow s).
Proof. apply eq_sym, firstn_map. Qed.
Lemma url_functions_shape san v k : ~ In 304 v -> forall i out rep w, url_functions_go san v (lower v) k i out rep = Keep w ->
  exists w', w = (out ++ w')%list /\ rewritten san v w'.
Proof.
  intros Hv. induction k as [|k IH]; intros i out rep w; cbn [url_functions_go]; [discriminate|].
  unfold find_from. rewrite (skipn_lower v Hv).
  assert (Hi : ~ In 304 (skipn i v)) by (intros H; apply Hv; exact (infix_In _ _ _ (skipn_infix i v) H)).
  rewrite (find_lower _ Hi). destruct (find (u "url(") (alow (skipn i v))) as [j|] eqn:Ej; cbn [option_map].
  - destruct (url_argument v (i + j + 4)) as [[raw close]|]; [|discriminate]. destruct (negb (boundary_ok v (close + 1))); [discriminate|].
    destruct (san raw) as [|s|] eqn:Es; try discriminate. destruct (existsb needs_escaping s) eqn:En; [discriminate|].
    intros H. destruct (IH _ _ _ _ H) as (w' & -> & Hw). exists (slice v i (i + j) ++ url_call s ++ w')%list. split; [rewrite <- !app_assoc; reflexivity|].
    apply (rw_call san v _ raw s w'); auto; [apply slice_infix|]. unfold no_url, slice. replace (i + j - i)%nat with j by lia. rewrite alow_firstn.
    destruct (find_first _ _ _ Ej) as [[_ Hf]|Hf]; [exact Hf|discriminate Hf].
  - destruct rep; [|discriminate]. intros H. exists (skipn i v). split; [congruence|]. apply rw_end; [apply skipn_infix|].
    intros (a & b & E). apply (proj1 (find_None _ _) Ej a b E).
Qed.

(* an occurrence of a blocked function in a rewritten value was in the original value *)
Lemma app_last_inj {A} (a b : list A) x y : (a ++ [x] = b ++ [y] -> a = b /\ x = y)%list.
Proof. apply app_inj_tail. Qed.
Lemma alow_c_letter x : is_lower_ascii (alow_c x) = true -> is_alpha_ascii x = true.
Proof. unfold is_alpha_ascii, alow_c. destruct (is_upper_ascii x) eqn:E; [reflexivity|]. intros ->. reflexivity. Qed.
Definition fun_char (c : N) : bool := is_alpha_ascii c || (c =? 45).
Lemma rewritten_blocked san v0 w b x : rewritten san v0 w -> forallb fun_char (b ++ [x])%list = true -> alow_c x <> 108 ->
  infix ((b ++ [x]) ++ [40])%list w -> infix ((b ++ [x]) ++ [40])%list v0.
Proof.
  intros Hr Hf Hx. set (n := (b ++ [x])%list) in *.
  assert (Hno : forall c, fun_char c = false -> c <> 40 -> ~ In c (n ++ [40])%list).
  { intros c Hc Hc' Hin. apply in_app_or in Hin. destruct Hin as [Hin|[Hin|[]]]; [|congruence]. rewrite forallb_forall in Hf. rewrite (Hf c Hin) in Hc; discriminate Hc. }
  assert (Main : forall seg raw s, infix seg v0 -> san raw = Keep s -> plain_url s -> forall w, (infix (n ++ [40]) w -> infix (n ++ [40])%list v0) -> infix (n ++ [40])%list (seg ++ url_call s ++ w)%list -> infix (n ++ [40])%list v0).
  { intros seg raw s Hseg _ Hs w' IH Hin.
    assert (E : (seg ++ url_call s ++ w' = (seg ++ u "url(") ++ 39 :: (s ++ 39 :: 41 :: w'))%list).
    { unfold url_call. rewrite <- !app_assoc. reflexivity. }
    rewrite E in Hin. apply infix_sep in Hin; [|apply Hno; [reflexivity|discriminate]]. destruct Hin as [Hin|Hin].
    - destruct Hin as (a & r & Ea).       destruct r as [|r0 r].
      + exfalso. rewrite app_nil_r in Ea. change (u "url(") with (u "ur" ++ [108] ++ [40])%list in Ea. unfold n in Ea. rewrite !app_assoc in Ea.
        apply app_inj_tail in Ea. destruct Ea as [Ea _]. apply app_inj_tail in Ea. destruct Ea as [_ Ea]. apply Hx. rewrite <- Ea. reflexivity.
      + destruct (exists_last (l := r0 :: r) ltac:(discriminate)) as (r' & y & Er). rewrite Er in Ea.
        assert (E2 : ((seg ++ u "url") ++ [40] = (a ++ (n ++ [40]) ++ r') ++ [y])%list) by (rewrite <- !app_assoc; rewrite <- app_assoc in Ea; exact Ea).
        apply app_inj_tail in E2. destruct E2 as [E2 _].
        destruct (infix_end n 40 seg (u "url") a r' ltac:(cbn; lia) E2) as [b' ->].
        apply (infix_trans _ (a ++ (n ++ [40]) ++ b')%list); [exists a, b'; reflexivity|exact Hseg].
    - apply infix_sep in Hin; [|apply Hno; [reflexivity|discriminate]]. destruct Hin as [Hin|Hin].
      + exfalso. destruct (plain_url_char s 40 Hs) as (_ & _ & _ & _ & Hc & _); [|apply Hc; reflexivity]. apply (infix_In _ _ _ Hin). apply in_or_app; right; left; reflexivity.
      + change (41 :: w')%list with ([] ++ 41 :: w')%list in Hin. apply infix_sep in Hin; [|apply Hno; [reflexivity|discriminate]]. destruct Hin as [(a & r & Ea)|Hin]; [|exact (IH Hin)].
        exfalso. apply (f_equal (@List.length N)) in Ea. rewrite !app_length in Ea. cbn in Ea. lia. }
  induction Hr as [seg Hs Hn|seg raw s w Hs Hn Es Hp Hw IH]; intros Hin.
  - exact (infix_trans _ _ _ Hin Hs).
  - exact (Main seg raw s Hs Es Hp w IH Hin).
Qed.
(* where url( occurs in a rewritten value *)
Lemma rewritten_url san v0 w U a r : rewritten san v0 w -> alow U = u "url" -> w = (a ++ (U ++ [40]) ++ r)%list ->
  exists raw s r', san raw = Keep s /\ plain_url s /\ r = (39 :: s ++ 39 :: r')%list.
Proof.
  intros Hr HU. assert (Lu : List.length U = 3%nat) by (apply (f_equal (@List.length N)) in HU; rewrite alow_length in HU; exact HU).
  assert (Hno : forall c, alow_c c = 39 \/ alow_c c = 41 -> ~ In c (U ++ [40])%list).
  { intros c Hc Hin. assert (In (alow_c c) (alow (U ++ [40]))%list) by (apply in_map; exact Hin). rewrite alow_app, HU in H. revert H. cbn. lia. }
  revert a r. induction Hr as [seg Hs Hn|seg raw s w Hs Hn Es Hp Hw IH]; intros a r E.
  - exfalso. apply Hn. exists (alow a), (alow r). rewrite E, !alow_app, HU. reflexivity.
  - assert (E' : (seg ++ url_call s ++ w = (seg ++ u "url(") ++ 39 :: (s ++ 39 :: 41 :: w))%list).
    { unfold url_call. rewrite <- !app_assoc. reflexivity. }
    rewrite E' in E.
    destruct (occ_split _ _ _ _ _ 39 (Hno 39 (or_introl eq_refl)) E) as [[q' E1]|[p' E1]].
    + destruct q' as [|q0 q'].
      * exists raw, s, (41 :: w)%list. repeat split; auto. rewrite app_nil_r in E1. rewrite E1 in E. rewrite <- !app_assoc in E. apply app_inv_head in E. apply app_inv_head in E.
        cbn [app] in E. congruence.
      * exfalso. destruct (exists_last (l := q0 :: q') ltac:(discriminate)) as (r' & y & Er). rewrite Er in E1.
        assert (E2 : ((seg ++ u "url") ++ [40] = (a ++ (U ++ [40]) ++ r') ++ [y])%list) by (rewrite <- !app_assoc; rewrite <- app_assoc in E1; exact E1).
        apply app_inj_tail in E2. destruct E2 as [E2 _]. destruct (infix_end U 40 seg (u "url") a r' ltac:(cbn; lia) E2) as [b' ->].
        apply Hn. exists (alow a), (alow b'). rewrite !alow_app, HU. reflexivity.
    + destruct (occ_split _ _ _ _ _ 39 (Hno 39 (or_introl eq_refl)) E1) as [[q' E2]|[p'' E2]].
      * exfalso. destruct (plain_url_char s 40 Hp) as (_ & _ & _ & _ & Hc & _); [|apply Hc; reflexivity]. rewrite E2. apply in_or_app; right. apply in_or_app; left. apply in_or_app; right; left; reflexivity.
      * change (41 :: w)%list with ([] ++ 41 :: w)%list in E2. destruct (occ_split _ _ _ _ _ 41 (Hno 41 (or_intror eq_refl)) E2) as [[q' E3]|[p3 E3]]; [|exact (IH _ _ E3)].
        exfalso. apply (f_equal (@List.length N)) in E3. rewrite !app_length in E3. cbn in E3. lia.
Qed.

(* ---- an occurrence in the output lies in one value ---- *)
Lemma split_char_infix c s d : In d (split_char c s) -> infix d s.
Proof.
  revert d. induction s as [|x s IH]; intros d; cbn [split_char].
  - intros [<-|[]]. exists [], []; reflexivity.
  - assert (Hc : forall d, infix d s -> infix d (x :: s)) by (intros d' (a & b & ->); exists (x :: a), b; reflexivity).
    destruct (x =? c).
    + intros [<-|H]; [exists [], (x :: s); reflexivity|apply Hc, IH; exact H].
    + destruct (split_char c s) as [|w ws] eqn:E; [intros [<-|[]]; exists [], s; reflexivity|].
      intros [<-|H]; [|apply Hc, IH; right; exact H].
      (* the first piece is a prefix of the rest *)
      assert (P : forall s w ws, split_char c s = w :: ws -> exists r, s = (w ++ r)%list).
      { clear. induction s as [|y s IH]; intros w ws; cbn [split_char]; [intros H; assert (w = []) as -> by congruence; exists []; reflexivity|].
        destruct (y =? c); [intros H; assert (w = []) as -> by congruence; exists (y :: s); reflexivity|].
        destruct (split_char c s) as [|w' ws'] eqn:E; [intros H; assert (w = [y]) as -> by congruence; exists s; reflexivity|].
        intros H; assert (w = y :: w') as -> by congruence. destruct (IH w' ws' eq_refl) as [r ->]. exists r; reflexivity. }
      destruct (P s w ws E) as [r ->]. exists [], r. reflexivity.
Qed.
Lemma occ_part py allowed p tag value l : parts py allowed p tag value l ->
  forall n z a r, ~ In 59 n -> ~ In 32 n -> ~ In 58 n -> In z n -> valid_property_char z = false -> join (u "; ") l = (a ++ n ++ r)%list ->
  exists decl prop v a' r' rest, infix decl value /\ valid_property_name prop = true /\ In prop allowed /\ good py p tag prop decl v /\ v = (a' ++ n ++ r')%list /\ r = (r' ++ rest)%list.
Proof.
  intros Hp n z a r N59 N32 N58 Hz Hvz. revert a. induction Hp as [|decl prop v l H1 H2 H3 H4 H5 IH]; intros a E.
  - exfalso. destruct a; [|discriminate E]. destruct n; [destruct Hz|discriminate E].
  - assert (W : forall a q, (prop ++ u ": " ++ v = a ++ n ++ q)%list -> forall rest, r = (q ++ rest)%list ->
       exists decl prop v a' r' rest, infix decl value /\ valid_property_name prop = true /\ In prop allowed /\ good py p tag prop decl v /\ v = (a' ++ n ++ r')%list /\ r = (r' ++ rest)%list).
    { intros a0 q E0 rest Er. change (prop ++ u ": " ++ v)%list with (prop ++ 58 :: 32 :: v)%list in E0.
      destruct (occ_split n prop (32 :: v) a0 q 58 N58 E0) as [[q' E1]|[p' E1]].
      { exfalso. apply (valid_char_not prop z H2 Hvz). rewrite E1. apply in_or_app; right. apply in_or_app; left. exact Hz. }
      change (32 :: v) with ([] ++ 32 :: v)%list in E1. destruct (occ_split n [] v p' q 32 N32 E1) as [[q' E2]|[p2 E2]].
      { exfalso. destruct p'; [|discriminate E2]. destruct n; [destruct Hz|discriminate E2]. }
      exists decl, prop, v, p2, q, rest. repeat split; auto. exact (split_char_infix _ _ _ H1). }
    destruct l as [|w' l].
    + apply (W a r E []). rewrite app_nil_r. reflexivity.
    + change (join (u "; ") ((prop ++ u ": " ++ v)%list :: w' :: l)) with ((prop ++ u ": " ++ v) ++ 59 :: 32 :: join (u "; ") (w' :: l))%list in E.
      destruct (occ_split n _ _ a r 59 N59 E) as [[q' E1]|[p' E1]].
      * apply (W a q' E1 (59 :: 32 :: join (u "; ") (w' :: l))%list). rewrite E1, <- !app_assoc in E. apply app_inv_head in E. apply app_inv_head in E. symmetry; exact E.
      * change (32 :: join (u "; ") (w' :: l)) with ([] ++ 32 :: join (u "; ") (w' :: l))%list in E1. destruct (occ_split n [] _ p' r 32 N32 E1) as [[q' E2]|[p2 E2]].
        { exfalso. destruct p'; [|discriminate E2]. destruct n; [destruct Hz|discriminate E2]. }
        exact (IH p2 E2).
Qed.
Lemma infix_contains_false n a b : infix a b -> contains n b = false -> contains n a = false.
Proof. intros H Hb. destruct (contains n a) eqn:E; [|reflexivity]. apply contains_infix in E. assert (contains n b = true); [|congruence]. apply contains_infix. exact (infix_trans _ _ _ E H). Qed.
Lemma allowed_value v allow : disallowed_functions v allow = false ->
  exists c, compact v = Some c /\ (forall b, In b blocked_tokens -> contains b c = false) /\ (allow = false -> contains (u "url(") c = false).
Proof.
  unfold disallowed_functions. destruct (mem 92 v); [discriminate|]. destruct (compact v) as [c|]; [|discriminate]. destruct (in_strs _ _); [discriminate|].
  destruct (existsb (fun b => contains b c) blocked_tokens) eqn:E; [discriminate|]. intros H. exists c. repeat split.
  - intros b Hb. destruct (contains b c) eqn:Eb; [|reflexivity]. assert (existsb (fun b => contains b c) blocked_tokens = true) by (apply existsb_exists; exists b; auto). congruence.
  - intros ->. exact H.
Qed.

(* the letters of a dangerous name, as written *)
Lemma alow_split n pre d : alow n = (pre ++ d)%list -> exists n1 n2, n = (n1 ++ n2)%list /\ alow n2 = d.
Proof.
  revert pre. induction n as [|c n IH]; intros pre E.
  - cbn in E. destruct pre; [|discriminate E]. destruct d; [|discriminate E]. exists [], []; auto.
  - destruct pre as [|p0 pre]; [exists [], (c :: n); auto|]. cbn [alow map app] in E. destruct (IH pre) as (n1 & n2 & -> & E2); [unfold alow; congruence|].
    exists (c :: n1), n2; auto.
Qed.
Lemma alow_fun_char n : forallb (fun c => is_lower_ascii c || (c =? 45)) (alow n) = true -> forallb fun_char n = true.
Proof.
  induction n as [|c n IH]; [reflexivity|]. cbn [alow map forallb]. intros H; apply andb_prop in H; destruct H as [Hc H]. rewrite IH by exact H. rewrite andb_true_r.
  unfold fun_char. apply orb_true_iff in Hc. destruct Hc as [Hc|Hc]; [rewrite (alow_c_letter _ Hc); reflexivity|].
  unfold alow_c in Hc. destruct (is_upper_ascii c) eqn:Eu; [unfold is_upper_ascii in Eu; lia|]. rewrite Hc, orb_true_r. reflexivity.
Qed.
Lemma fun_char_keep n : forallb fun_char n = true -> forallb keepc (n ++ [40])%list = true.
Proof.
  intros H. rewrite forallb_app. cbn [forallb]. replace (keepc 40) with true by reflexivity. rewrite !andb_true_r.
  apply (forallb_impl fun_char); [|exact H]. intros c. unfold fun_char, keepc, is_alpha_ascii, is_upper_ascii, is_lower_ascii. lia.
Qed.
Lemma fun_char_no n c : forallb fun_char n = true -> fun_char c = false -> c <> 40 -> ~ In c (n ++ [40])%list.
Proof. intros H Hc H40 Hin. apply in_app_or in Hin. destruct Hin as [Hin|[Hin|[]]]; [|congruence]. rewrite forallb_forall in H. rewrite (H c Hin) in Hc; discriminate Hc. Qed.
Definition last_ok (d : str) : Prop := exists b x, d = (b ++ [x])%list /\ x <> 108.
Lemma dangerous_facts d : In d dangerous_suffixes -> In (d ++ [40])%list blocked_tokens /\ forallb (fun c => is_lower_ascii c || (c =? 45)) d = true /\ last_ok d.
Proof.
  intros [<-|[<-|[<-|[<-|[<-|[]]]]]]; (split; [cbn; tauto|]); (split; [reflexivity|]).
  - exists (u "sr"), 99; split; [reflexivity|discriminate].
  - exists (u "imag"), 101; split; [reflexivity|discriminate].
  - exists (u "image-se"), 116; split; [reflexivity|discriminate].
  - exists (u "expressio"), 110; split; [reflexivity|discriminate].
  - exists (u "va"), 114; split; [reflexivity|discriminate].
Qed.
Lemma value_no_dangerous py p tag prop decl v d n : good py p tag prop decl v -> contains (u "/*") decl = false -> ~ In 304 decl ->
  In d dangerous_suffixes -> alow n = d -> ~ infix (n ++ [40])%list v.
Proof.
  intros Hg Hc H304 Hd En Hin. destruct (dangerous_facts d Hd) as (Hblk & Hch & (b & x & Ed & Hx)).
  assert (Hf : forallb fun_char n = true) by (apply alow_fun_char; rewrite En; exact Hch).
  assert (B : forall v allow, infix v decl -> disallowed_functions v allow = false -> infix (n ++ [40])%list v -> False).
  { intros v1 allow Hi Hdis Hin1. destruct (allowed_value _ _ Hdis) as (c & Ec & Hb & _).
    rewrite (compact_nocomment v1) in Ec by exact (infix_contains_false _ _ _ Hi Hc). assert (c = fm v1) as -> by congruence.
    pose proof (fm_infix _ _ Hin1 (fun_char_keep n Hf)) as Hf1. rewrite alow_app, En in Hf1. change (alow [40]) with [40] in Hf1.
    apply contains_infix in Hf1. rewrite (Hb _ Hblk) in Hf1. discriminate Hf1. }
  destruct Hg as [v Hi Hdis|pol r v0 v Ep El Hi Hdis Hc0 Hb0 Hu].
  - exact (B v false Hi Hdis Hin).
  - assert (Hv304 : ~ In 304 v0) by (intros H; apply H304; exact (infix_In _ _ _ Hi H)).
    destruct (url_functions_shape _ _ _ Hv304 _ _ _ _ Hu) as (w' & Ew & Hr). cbn [app] in Ew. subst w'.
    destruct (exists_last (l := n)) as (n' & y & En'). { intros ->. cbn in En. subst d. destruct b; discriminate Ed. }
    assert (Hy : alow_c y <> 108). { intros Hy. apply Hx. rewrite <- En, En', alow_app in Ed. cbn in Ed. apply app_inj_tail in Ed. destruct Ed as [_ <-]. exact Hy. }
    rewrite En' in *. exact (B v0 true Hi Hdis (rewritten_blocked _ _ _ n' y Hr Hf Hy Hin)).
Qed.

(* ---- theorem B: inputs without comments ---- *)
Lemma u_alow_In U c : alow U = u "url" -> In c U -> fun_char c = true.
Proof. intros H Hc. assert (Hf : forallb fun_char U = true) by (apply alow_fun_char; rewrite H; reflexivity). rewrite forallb_forall in Hf. exact (Hf c Hc). Qed.
Lemma url_occurrence py allowed value tag p l U a r : parts py allowed p tag value l -> contains (u "/*") value = false -> ~ In 304 value ->
  alow U = u "url" -> join (u "; ") l = (a ++ (U ++ [40]) ++ r)%list ->
  exists pol prop rl raw s r', p = Some pol /\ In prop allowed /\ lookup_css_rule pol tag prop = Some rl /\ the_san py pol tag prop rl raw = Keep s /\ plain_url s /\ r = (39 :: s ++ 39 :: r')%list.
Proof.
  intros Hp Hc H304 HU E. assert (Hf : forallb fun_char U = true) by (apply alow_fun_char; rewrite HU; reflexivity).
  destruct (occ_part _ _ _ _ _ _ Hp (U ++ [40])%list 40 a r) as (decl & prop & v & a' & r' & rest & Hd & Hv & Hall & Hg & Ev & Er); try (apply fun_char_no; [exact Hf|reflexivity|discriminate]); [apply in_or_app; right; left; reflexivity|reflexivity|exact E|].
  destruct Hg as [v Hi Hdis|pol rl v0 v Ep El Hi Hdis Hc0 Hb0 Hu].
  - exfalso. destruct (allowed_value _ _ Hdis) as (c & Ec & _ & Hn). rewrite (compact_nocomment v) in Ec by exact (infix_contains_false _ _ _ (infix_trans _ _ _ Hi Hd) Hc). assert (c = fm v) as -> by congruence.
    assert (Hin : infix (U ++ [40])%list v) by (exists a', r'; exact Ev). pose proof (fm_infix _ _ Hin (fun_char_keep U Hf)) as Hf1. rewrite alow_app, HU in Hf1.
    change (u "url" ++ alow [40])%list with (u "url(") in Hf1. apply contains_infix in Hf1. rewrite (Hn eq_refl) in Hf1. discriminate Hf1.
  - assert (Hv304 : ~ In 304 v0) by (intros H; apply H304; exact (infix_In _ _ _ (infix_trans _ _ _ Hi Hd) H)).
    destruct (url_functions_shape _ _ _ Hv304 _ _ _ _ Hu) as (w' & Ew & Hr). cbn [app] in Ew. subst w'.
    destruct (rewritten_url _ _ _ U a' r' Hr HU Ev) as (raw & s & r2 & Es & Hpl & Er2). exists pol, prop, rl, raw, s, (r2 ++ rest)%list.
    repeat split; auto. rewrite Er, Er2. cbn [app]. rewrite <- app_assoc. reflexivity.
Qed.
Lemma step_fun c t n r : ~ In 92 (c :: t) -> step c t (Some (CFun n)) r -> c :: t = (n ++ 40 :: r)%list /\ n = take_while ident_char (c :: t) /\ (alow n = u "url" -> quote_next (drop_while css_ws r) = true).
Proof.
  intros Hb H. inversion H as [ | |tk r' Hq Hc| | |tk n' t' r' E0| | |tk r' Ha Hm Hk| | | | | ]; subst; auto; try contradiction.
  exfalso. assert (Ht : ~ In 92 t) by (intros Hin; apply Hb; right; exact Hin). pose proof (consume_string_kind (S (List.length t)) c t Ht) as K. rewrite Hc in K. exact K.
Qed.
Lemma step_url c t tk r : ~ In 92 (c :: t) -> is_url_tok tk -> step c t (Some tk) r -> exists n t', c :: t = (n ++ 40 :: t')%list /\ alow n = u "url" /\ quote_next (drop_while css_ws t') = false.
Proof.
  intros Hb Hk H. inversion H as [ | |tk' r' Hq Hc| | |tk' n' t' r' E0 E1 E2 E3 E4 E5| | |tk' r' Ha Hm Hk'| | | | | ]; subst; try contradiction.
  - exfalso. assert (Ht : ~ In 92 t) by (intros Hin; apply Hb; right; exact Hin). pose proof (consume_string_kind (S (List.length t)) c t Ht) as K. rewrite Hc in K. destruct tk; contradiction.
  - exists (take_while ident_char (c :: t)), t'. auto.
  - destruct tk; contradiction.
Qed.
Lemma plain_newline s : plain_url s -> forallb (fun c => negb (css_newline c)) s = true.
Proof. intros H. apply forallb_forall. intros c Hc. destruct (plain_url_char _ _ H Hc) as [H1 _]. unfold css_newline. lia. Qed.
Lemma functions_nocomment py allowed value tag p out : contains (u "/*") value = false -> ~ In 304 value ->
  sanitize_inline_style py allowed value tag p = Keep out -> forall pre tk post, css_tokens out = (pre ++ tk :: post)%list ->
  ~ is_url_tok tk /\
  forall n, tk = CFun n -> ~ dangerous_function n /\
    (alow n = u "url" -> exists pol prop rl raw s post', p = Some pol /\ In prop allowed /\ lookup_css_rule pol (lower tag) prop = Some rl /\
       the_san py pol (lower tag) prop rl raw = Keep s /\ post = CStr s :: post').
Proof.
  intros Hc H304 H pre tk post E. pose proof (output_no_backslash _ _ _ _ _ _ H) as Hb. destruct (style_parts _ _ _ _ _ _ H) as (l & -> & Hl & Hp).
  destruct (token_origin _ _ _ _ Hb E) as (c & t & r & _ & St & -> & Hsuf). assert (Hct : ~ In 92 (c :: t)) by exact (suffix_In _ _ _ Hsuf Hb). destruct Hsuf as [a Ea].
  split.
  - intros Hu. destruct (step_url _ _ _ _ Hct Hu St) as (n & t' & E1 & E2 & E3). rewrite E1 in Ea.
    destruct (url_occurrence _ _ _ _ _ _ n a t' Hp Hc H304 E2) as (pol & prop & rl & raw & s & r' & _ & _ & _ & _ & _ & Er); [rewrite Ea, <- !app_assoc; reflexivity|].
    rewrite Er in E3. discriminate E3.
  - intros n ->. destruct (step_fun _ _ _ _ Hct St) as (E1 & E2 & E3). rewrite E1 in Ea. split.
    + intros (d & Hd & pr & Ed). destruct (alow_split _ _ _ Ed) as (n1 & n2 & En & En2).
      destruct (dangerous_facts d Hd) as (_ & Hch & _). assert (Hf : forallb fun_char n2 = true) by (apply alow_fun_char; rewrite En2; exact Hch).
      destruct (occ_part _ _ _ _ _ _ Hp (n2 ++ [40])%list 40 (a ++ n1)%list r) as (decl & prop & v & a' & r' & rest & Hdv & Hv & Hall & Hg & Ev & Er); try (apply fun_char_no; [exact Hf|reflexivity|discriminate]); [apply in_or_app; right; left; reflexivity|reflexivity|rewrite Ea, En, <- !app_assoc; reflexivity|].
      apply (value_no_dangerous _ _ _ _ _ _ d n2 Hg (infix_contains_false _ _ _ Hdv Hc)); auto; [intros Hin; apply H304; exact (infix_In _ _ _ Hdv Hin)|exists a', r'; exact Ev].
    + intros Hu. destruct (url_occurrence _ _ _ _ _ _ n a r Hp Hc H304 Hu) as (pol & prop & rl & raw & s & r' & Q1 & Q2 & Q3 & Q4 & Q5 & Er); [rewrite Ea, <- !app_assoc; reflexivity|].
      assert (Hbr : ~ In 92 r) by (intros Hin; apply Hct; rewrite E1; apply in_or_app; right; right; exact Hin).
      exists pol, prop, rl, raw, s, (css_tokens r'). repeat split; auto. rewrite Er in *.
      rewrite (css_tokens_step 39 (s ++ 39 :: r') (Some (CStr s)) r'); [reflexivity|exact Hbr|].
      unfold consume_token. replace (starts (u "/*") (39 :: s ++ 39 :: r')) with false by reflexivity. replace (css_ws 39) with false by reflexivity. cbn [orb N.eqb]. cbv iota.
      change ((39 =? 34) || (39 =? 39)) with true. cbv iota.
      rewrite consume_string_ok; [reflexivity| | |exact (plain_newline _ Q5)|rewrite app_length; lia].
      * intros Hin. destruct (plain_url_char _ _ Q5 Hin) as (_ & _ & Hq & _). apply Hq; reflexivity.
      * intros Hin. apply Hbr. right. apply in_or_app; left; exact Hin.
Qed.
