(* Proofs: host allowlists (C15), protocol-relative values (C14), strip/proxy (C16), relative/fragment switches (C17) *)
From Coq Require Import Lia ZifyBool ZifyN ZifyNat.
From Verif Require Import Str StrFacts ListFacts UrlSpec PercentSpec SerializerModel UrlModel UrlProofs JsUrlProofs.
Open Scope N_scope.

Lemma take_while_app_stop p a b : forallb p a = true -> (forall c t, b = c :: t -> p c = false) -> take_while p (a ++ b)%list = a.
Proof.
  intros Ha Hb. induction a as [|x a IH]; cbn [app take_while].
  - destruct b as [|c t]; [reflexivity|]. cbn [take_while]. rewrite (Hb c t eq_refl). reflexivity.
  - cbn [forallb] in Ha. apply andb_prop in Ha. destruct Ha as [Hx Ha]. rewrite Hx. f_equal. apply IH. exact Ha.
Qed.
Lemma drop_while_app_stop p a b : forallb p a = true -> (forall c t, b = c :: t -> p c = false) -> drop_while p (a ++ b)%list = b.
Proof.
  intros Ha Hb. induction a as [|x a IH]; cbn [app drop_while].
  - destruct b as [|c t]; [reflexivity|]. cbn [drop_while]. rewrite (Hb c t eq_refl). reflexivity.
  - cbn [forallb] in Ha. apply andb_prop in Ha. destruct Ha as [Hx Ha]. rewrite Hx. apply IH. exact Ha.
Qed.

Lemma rpart_after c s : rpart c s = after_last c s.
Proof. induction s as [|x s IH]; [reflexivity|]. cbn [rpart after_last]. rewrite IH. reflexivity. Qed.
Lemma rhead_no c a b : ~ In c b -> rhead c (a ++ c :: b)%list = a.
Proof.
  intros H. induction a as [|x a IH]; cbn [app rhead].
  - replace (mem c b) with false by (symmetry; apply mem_false_In; exact H). rewrite N.eqb_refl. reflexivity.
  - replace (mem c (a ++ c :: b)%list) with true by (symmetry; apply mem_In; apply in_or_app; right; left; reflexivity). rewrite IH. reflexivity.
Qed.
Lemma part_split c s : In c s -> s = (part_before c s ++ c :: part_after c s)%list.
Proof.
  intros H. unfold part_before, part_after. rewrite (drop_while_app (fun x => negb (x =? c)) s) at 1.
  destruct (drop_while (fun x => negb (x =? c)) s) as [|d t] eqn:E.
  - exfalso. assert (Hs : s = take_while (fun x => negb (x =? c)) s) by (rewrite (drop_while_app (fun x => negb (x =? c)) s) at 1; rewrite E, app_nil_r; reflexivity).
    pose proof (take_while_all (fun x => negb (x =? c)) s) as Ha. rewrite <- Hs in Ha. rewrite forallb_forall in Ha. specialize (Ha c H). lia.
  - cbn [tl]. apply drop_while_head in E. assert (d = c) by lia. subst d. reflexivity.
Qed.
Lemma part_before_none c s : ~ In c s -> part_before c s = s.
Proof.
  intros H. unfold part_before. rewrite <- (app_nil_r s) at 1. apply take_while_app_stop; [|discriminate]. apply forallb_forall. intros x Hx.
  destruct (N.eqb_spec x c) as [->|]; [contradiction|reflexivity].
Qed.
Lemma part_after_none c s : ~ In c s -> part_after c s = [].
Proof.
  intros H. unfold part_after. replace (drop_while (fun x => negb (x =? c)) s) with (@nil N); [reflexivity|]. symmetry. rewrite <- (app_nil_r s) at 1. apply drop_while_app_stop; [|discriminate].
  apply forallb_forall. intros x Hx. destruct (N.eqb_spec x c) as [->|]; [contradiction|reflexivity].
Qed.

Lemma port_digits p : port_ok p = true -> ~ In 58 p.
Proof.
  unfold port_ok. destruct p as [|c t]; [intros _ []|]. intros H Hi. apply andb_prop in H. destruct H as [H _]. rewrite forallb_forall in H. specialize (H 58 Hi). discriminate H.
Qed.

Lemma raw_host_eq netloc h : port_ok (snd (hostinfo netloc)) = true -> written_host netloc = Some h -> raw_authority_host netloc <> [] ->
  raw_authority_host netloc = h /\ fst (hostinfo netloc) = h.
Proof.
  unfold raw_authority_host, written_host, hostinfo. rewrite !rpart_after. generalize (after_last 64 netloc) as h0. intros h0 Hp Hw Hne.
  assert (Hx : exists c t, h0 = c :: t) by (destruct h0 as [|c t]; [cbn in Hne; congruence|eauto]). destruct Hx as (c & t & E0).
  destruct (N.eqb_spec c 91) as [->|Hc].
  - assert (Es : starts [91] h0 = true) by (rewrite E0; reflexivity). rewrite Es in *. assert (Em : mem 91 h0 = true) by (rewrite E0; reflexivity). rewrite Em in *. cbn [fst].
    assert (Ea : part_after 91 h0 = t) by (rewrite E0; reflexivity). rewrite Ea in *.
    destruct (mem 93 h0) eqn:E93; [|congruence]. rewrite E0 in Hw. cbn [tl].
    fold (part_before 93 t) in Hw. replace (tl h0) with t by (rewrite E0; reflexivity).
    destruct (drop_while (fun c => negb (c =? 93)) t) as [|x r]; [discriminate|]. destruct (N.eqb_spec x 93) as [->|Hx].
    + destruct r as [|y r]; [injection Hw as <-; auto|]. destruct (N.eqb_spec y 58) as [->|Hy]; [injection Hw as <-; auto|].
      exfalso. revert Hw. destruct y as [|p]; [discriminate|]. do 6 (destruct p as [p|p|]; try discriminate). congruence.
    + exfalso. revert Hw. destruct x as [|p]; [discriminate|]. do 7 (destruct p as [p|p|]; try discriminate). congruence.
  - assert (Es : starts [91] h0 = false) by (rewrite E0; cbn [starts]; replace (91 =? c) with false by lia; reflexivity). rewrite Es in *.
    assert (Hw' : (if mem 91 h0 || mem 93 h0 then None else Some (part_before 58 h0)) = Some h).
    { rewrite <- Hw. rewrite E0. destruct c as [|p]; [reflexivity|]. do 7 (destruct p as [p|p|]; try reflexivity). congruence. }
    destruct (mem 91 h0) eqn:E91; [discriminate|]. destruct (mem 93 h0); [discriminate|]. cbn [orb] in Hw'. injection Hw' as <-. cbn [fst snd] in *.
    split; [|reflexivity]. destruct (mem 58 h0) eqn:E58.
    + apply mem_In in E58. rewrite (part_split 58 h0 E58) at 1. apply rhead_no. apply port_digits. exact Hp.
    + apply mem_false_In in E58. symmetry. apply part_before_none. exact E58.
Qed.

Lemma alow_ascii s : is_ascii s = true -> is_ascii (alow s) = true.
Proof.
  unfold is_ascii, alow. intros H. apply forallb_forall. intros c Hc. apply in_map_iff in Hc. destruct Hc as (d & <- & Hd). rewrite forallb_forall in H. specialize (H d Hd).
  unfold is_ascii_char, alow_c, is_upper_ascii in *. destruct ((65 <=? d) && (d <=? 90)) eqn:E; lia.
Qed.

Lemma is_decimal_digit c : is_ascii_char c = true -> is_decimal c = is_digit_ascii c.
Proof.
  unfold is_ascii_char, is_digit_ascii. intros H.
  assert (G : forallb (fun c => Bool.eqb (is_decimal c) ((48 <=? c) && (c <=? 57))) (map N.of_nat (seq 0 128)) = true) by (vm_compute; reflexivity).
  rewrite forallb_forall in G. apply Bool.eqb_prop. apply G. apply in_map_iff. exists (N.to_nat c). split; [lia|]. apply in_seq. lia.
Qed.
Lemma forallb_eq {A} (p q : A -> bool) l : (forall c, In c l -> p c = q c) -> forallb p l = forallb q l.
Proof. induction l as [|x l IH]; intros H; [reflexivity|]. cbn [forallb]. rewrite (H x (or_introl eq_refl)), IH; [reflexivity|]. intros c Hc. apply H. right. exact Hc. Qed.

Lemma legacy_number l : is_ascii l = true -> numeric_label l -> is_legacy_ipv4_number l = true.
Proof.
  intros Ha [H Hx]. unfold is_legacy_ipv4_number. destruct l as [|a t]; [discriminate|]. rewrite lower_ascii by exact Ha.
  assert (Hdec : forallb is_digit_ascii (a :: t) = true -> str_isdecimal (a :: t) = true).
  { intros Hd. unfold str_isdecimal. rewrite <- Hd. apply forallb_eq. intros c Hc. apply is_decimal_digit. unfold is_ascii in Ha. rewrite forallb_forall in Ha. apply Ha. exact Hc. }
  destruct t as [|b t].
  - unfold ipv4_number in H. change (starts (u "0x") (alow [a])) with ((48 =? alow_c a) && false). rewrite andb_false_r. apply Hdec. exact H.
  - unfold ipv4_number in H. change (starts (u "0x") (alow (a :: b :: t))) with ((48 =? alow_c a) && ((120 =? alow_c b) && true)).
    assert (Ea : (48 =? alow_c a) = (a =? 48)) by (unfold alow_c, is_upper_ascii; destruct ((65 <=? a) && (a <=? 90)) eqn:E; lia).
    assert (Eb : (120 =? alow_c b) = ((b =? 120) || (b =? 88))) by (unfold alow_c, is_upper_ascii; destruct ((65 <=? b) && (b <=? 90)) eqn:E; lia).
    rewrite Ea, Eb, andb_true_r. destruct ((a =? 48) && ((b =? 120) || (b =? 88))) eqn:E; [|apply Hdec; exact H].
    destruct t as [|d t]; [|cbn [skipn]; rewrite H; reflexivity]. exfalso. apply Hx.
    apply andb_prop in E. destruct E as [E1 E2]. apply N.eqb_eq in E1. subst a. apply orb_prop in E2. destruct E2 as [E2|E2]; apply N.eqb_eq in E2; subst b; reflexivity.
Qed.

Lemma split_char_incl c s l : In l (split_char c s) -> incl l s.
Proof.
  revert l. induction s as [|x s IH]; intros l H; cbn [split_char] in H.
  - destruct H as [<-|[]]. apply incl_refl.
  - destruct (x =? c).
    + destruct H as [<-|H]; [intros y []|]. intros y Hy. right. exact (IH l H y Hy).
    + destruct (split_char c s) as [|w ws] eqn:E.
      * destruct H as [<-|[]]. intros y [<-|[]]. left. reflexivity.
      * destruct H as [<-|H].
        -- intros y [<-|Hy]; [left; reflexivity|]. right. exact (IH w (or_introl eq_refl) y Hy).
        -- intros y Hy. right. exact (IH l (or_intror H) y Hy).
Qed.
Lemma split_char_nonempty c s : split_char c s <> [].
Proof. destruct s as [|x s]; [discriminate|]. cbn [split_char]. destruct (x =? c); [discriminate|]. destruct (split_char c s); discriminate. Qed.

Lemma canonical_label l : is_canonical_ipv4_decimal_label l = true -> dec_label l.
Proof.
  unfold is_canonical_ipv4_decimal_label, dec_label. intros H.
  repeat (apply andb_prop in H; let H' := fresh "H" in destruct H as [H H']).
  rename H into Ha, H3 into Hd, H2 into Hl, H1 into Hz, H0 into Hv.
  destruct l as [|c t]; [discriminate|]. unfold str_isdecimal in Hd.
  assert (Hdig : forallb is_digit_ascii (c :: t) = true).
  { rewrite <- Hd. apply forallb_eq. intros x Hx. symmetry. apply is_decimal_digit. unfold is_ascii in Ha. rewrite forallb_forall in Ha. apply Ha. exact Hx. }
  split; [discriminate|]. split; [exact Hdig|]. apply Nat.leb_le in Hl. split; [exact Hl|]. split.
  - intros t' E. injection E as -> ->. apply orb_prop in Hz. destruct Hz as [Hz|Hz]; [|discriminate Hz]. apply Nat.eqb_eq in Hz. destruct t'; [reflexivity|discriminate Hz].
  - apply orb_prop in Hv. destruct Hv as [Hv|Hv]; [|apply N.leb_le; exact Hv]. apply Nat.ltb_lt in Hv.
    rewrite forallb_forall in Hdig. assert (Hb : forall x, In x (c :: t) -> 48 <= x /\ x <= 57) by (intros x Hx; specialize (Hdig x Hx); unfold is_digit_ascii in Hdig; lia).
    destruct t as [|d [|e t]]; [| |cbn in Hv; lia]; unfold digits_value; cbn [map fold_left].
    + specialize (Hb c (or_introl eq_refl)). lia.
    + pose proof (Hb c (or_introl eq_refl)). pose proof (Hb d (or_intror (or_introl eq_refl))). lia.
Qed.

Lemma canonical_host h : uses_canonical_ascii_url_host h = true -> is_ascii h = true /\ ~ In 37 h /\ (~ In 58 h -> ipv4_canonical h).
Proof.
  unfold uses_canonical_ascii_url_host. destruct (mem 37 h) eqn:E37; [discriminate|]. destruct (existsb (fun c => 127 <? c) h) eqn:Ea; [discriminate|]. intros H.
  assert (Hasc : is_ascii h = true).
  { unfold is_ascii. apply forallb_forall. intros c Hc. unfold is_ascii_char. destruct (N.ltb_spec c 128) as [|L]; [reflexivity|]. exfalso.
    assert (existsb (fun c => 127 <? c) h = true) by (apply existsb_exists; exists c; split; [exact Hc|lia]). congruence. }
  split; [exact Hasc|]. split; [apply mem_false_In; exact E37|]. intros H58 Hlen Hnum.
  replace (mem 58 h) with false in H by (symmetry; apply mem_false_In; exact H58). cbn [negb andb] in H.
  destruct (is_noncanonical_numeric_ipv4_host h) eqn:En; [discriminate|]. unfold is_noncanonical_numeric_ipv4_host in En.
  assert (L1 : (1 <= List.length (split_char 46 h))%nat) by (pose proof (split_char_nonempty 46 h); destruct (split_char 46 h); [congruence|cbn; lia]).
  apply Nat.leb_le in L1, Hlen. rewrite L1, Hlen in En. cbn [andb negb] in En.
  replace (forallb is_legacy_ipv4_number (split_char 46 h)) with true in En.
  - cbn [negb] in En. apply negb_false_iff in En. apply andb_prop in En. destruct En as [E4 Ec]. apply Nat.eqb_eq in E4. split; [exact E4|]. intros l Hl. apply canonical_label. rewrite forallb_forall in Ec. apply Ec. exact Hl.
  - symmetry. apply forallb_forall. intros l Hl. apply legacy_number; [|apply Hnum; exact Hl].
    unfold is_ascii in *. apply forallb_forall. intros c Hc. rewrite forallb_forall in Hasc. apply Hasc. exact (split_char_incl 46 h l Hl c Hc).
Qed.

Lemma nosep_eq c : negb (mem c (u "/?#")) = negb (ends_authority false c).
Proof. unfold ends_authority. cbn. destruct (c =? 47), (c =? 63), (c =? 35); reflexivity. Qed.

Lemma tidy_urlsplit s : tidy s -> filter (fun c => negb (mem c [9; 13; 10])) (drop_while (fun c => c <=? 32) s) = s.
Proof.
  intros (H1 & H2 & _). rewrite control_false in H1. rewrite drop_while_id.
  - apply filter_all. intros c Hc. specialize (H1 c Hc). apply negb_true_iff, mem_false_In. cbn. lia.
  - intros c t E. specialize (H2 c t E). assert (Hc : In c s) by (rewrite E; left; reflexivity). specialize (H1 c Hc). lia.
Qed.

Lemma take_while_ext' (p q : N -> bool) s : (forall c, In c s -> p c = q c) -> take_while p s = take_while q s.
Proof.
  induction s as [|c s IH]; intros H; [reflexivity|]. cbn [take_while]. rewrite (H c (or_introl eq_refl)). destruct (q c); [|reflexivity]. f_equal. apply IH. intros; apply H; right; assumption.
Qed.

Definition good_host (hosts : list str) (h : str) : Prop :=
  In (alow h) hosts /\ h <> [] /\ is_ascii h = true /\ ~ In 37 h /\ (~ In 58 h -> ipv4_canonical h).

Lemma host_matches py raw rest hosts : (exists c t, raw = c :: t /\ is_alpha_ascii c = true) -> forallb scheme_char raw = true ->
  tidy (raw ++ 58 :: rest)%list -> url_host_matches py (raw ++ 58 :: rest)%list hosts = true ->
  exists netloc t, rest = (47 :: 47 :: netloc ++ t)%list /\ netloc <> [] /\ forallb (fun c => negb (ends_authority false c)) netloc = true /\
    (forall c t', t = c :: t' -> ends_authority false c = true) /\ existsb ws_or_control netloc = false /\
    forall h, written_host netloc = Some h -> good_host hosts h.
Proof.
  intros Hal Hf Ht H. unfold url_host_matches, urlsplit_netloc in H. cbv zeta in H. rewrite (tidy_urlsplit _ Ht) in H.
  rewrite find_char_app in H.
  2:{ intros Hi. rewrite forallb_forall in Hf. specialize (Hf 58 Hi). discriminate Hf. }
  destruct Hal as (c0 & t0 & Er & Ha). destruct (List.length raw) as [|i] eqn:El; [rewrite Er in El; discriminate El|]. rewrite <- El in H.
  replace (match (raw ++ 58 :: rest)%list with [] => false | c :: _ => is_alpha_ascii c end) with true in H by (rewrite Er; cbn [app]; symmetry; exact Ha).
  rewrite firstn_app, Nat.sub_diag, firstn_all in H. cbn [firstn] in H. rewrite app_nil_r in H.
  replace (forallb scheme_chars raw) with true in H by (symmetry; rewrite <- Hf; apply forallb_eq; intros; apply scheme_char_code).
  cbn [andb] in H. replace (skipn (S (List.length raw)) (raw ++ 58 :: rest)%list) with rest in H.
  2:{ replace (raw ++ 58 :: rest)%list with ((raw ++ [58]) ++ rest)%list by (rewrite <- app_assoc; reflexivity). replace (S (List.length raw)) with (List.length (raw ++ [58])%list) by (rewrite app_length; cbn; lia).
      rewrite skipn_app, Nat.sub_diag, skipn_all. reflexivity. }
  destruct (starts (u "//") rest) eqn:Es.
  2:{ cbn in H. discriminate H. }
  apply starts_spec in Es. destruct Es as (r2 & ->). change (skipn 2 (u "//" ++ r2)%list) with r2 in H.
  set (netloc := take_while (fun c => negb (mem c (u "/?#"))) r2) in *.
  destruct ((mem 91 netloc && negb (mem 93 netloc)) || (mem 93 netloc && negb (mem 91 netloc))); [discriminate|].
  destruct (mem 91 netloc && mem 93 netloc && negb (bracket_ok py netloc)); [discriminate|].
  destruct (negb (is_ascii netloc) && negb (nfkc_ok py netloc)); [discriminate|].
  destruct (port_ok (snd (hostinfo netloc))) eqn:Ep; [|discriminate]. cbn [negb] in H.
  destruct (existsb ws_or_control netloc) eqn:Ew; [discriminate|].
  destruct (raw_authority_host netloc) as [|rc rh] eqn:Eh; [discriminate|]. rewrite <- Eh in H.
  destruct (uses_canonical_ascii_url_host (raw_authority_host netloc)) eqn:Eu; [|discriminate]. cbn [negb] in H.
  exists netloc, (drop_while (fun c => negb (mem c (u "/?#"))) r2). split; [|split; [|split; [|split; [|split]]]].
  - change (u "//" ++ r2)%list with (47 :: 47 :: r2)%list. do 2 f_equal. apply drop_while_app.
  - intros E. rewrite E in Eh. discriminate Eh.
  - rewrite <- (take_while_all (fun c => negb (mem c (u "/?#"))) r2). unfold netloc. apply forallb_eq. intros; symmetry; apply nosep_eq.
  - intros c t' E. apply drop_while_head in E. rewrite nosep_eq in E. apply negb_false_iff in E. exact E.
  - exact Ew.
  - intros h Hw. destruct (raw_host_eq netloc h Ep Hw) as [E1 E2]; [rewrite Eh; discriminate|]. rewrite E1 in Eu, Eh.
    destruct (canonical_host h Eu) as (C1 & C2 & C3). unfold hostname in H. rewrite E2 in H.
    replace (mem 37 h) with false in H by (symmetry; apply mem_false_In; exact C2).
    rewrite (lower_ascii h C1) in H. rewrite (lower_ascii _ (alow_ascii h C1)), alow_idem in H. rewrite Eh in H. cbn [alow map] in H.
    split; [|split; [rewrite Eh; discriminate|auto]]. apply in_strs_In. rewrite Eh. exact H.
Qed.

Lemma browser_authority_netloc raw netloc t : (exists c t, raw = c :: t /\ is_alpha_ascii c = true) -> forallb scheme_char raw = true ->
  tidy (raw ++ 58 :: 47 :: 47 :: netloc ++ t)%list -> netloc <> [] -> forallb (fun c => negb (ends_authority false c)) netloc = true ->
  (forall c t', t = c :: t' -> ends_authority false c = true) -> ~ In 92 netloc ->
  browser_authority (raw ++ 58 :: 47 :: 47 :: netloc ++ t)%list = Some netloc.
Proof.
  intros Hal Hf Ht Hne Hn Hst H92. unfold browser_authority. rewrite (tidy_input _ Ht).
  assert (E : scheme_start (raw ++ 58 :: 47 :: 47 :: netloc ++ t)%list = Some (alow raw, (47 :: 47 :: netloc ++ t)%list)).
  { unfold scheme_start. destruct Hal as (c & t0 & Er & Ha). rewrite Er at 1. cbn [app]. rewrite Ha. apply scheme_state_app. exact Hf. }
  rewrite E. destruct (in_strs (alow raw) special_schemes).
  - f_equal. change (drop_while slash (47 :: 47 :: netloc ++ t)%list) with (drop_while slash (netloc ++ t)%list).
    rewrite (drop_while_id slash (netloc ++ t)%list).
    + apply take_while_app_stop.
      * apply forallb_forall. intros c Hc. rewrite forallb_forall in Hn. specialize (Hn c Hc). assert (c <> 92) by (intros ->; contradiction). unfold ends_authority in *. cbn in *. lia.
      * intros c t' Et. specialize (Hst c t' Et). unfold ends_authority in *. cbn in *. lia.
    + intros c t' Ec. destruct netloc as [|d n]; [congruence|]. cbn [app] in Ec. injection Ec as <- _. rewrite forallb_forall in Hn. specialize (Hn d (or_introl eq_refl)).
      unfold slash. destruct (N.eqb_spec d 92) as [->|]; [exfalso; apply H92; left; reflexivity|]. unfold ends_authority in Hn. cbn in Hn. lia.
  - f_equal. apply take_while_app_stop; [exact Hn|]. intros c t' Et. apply negb_false_iff. exact (Hst c t' Et).
Qed.

Lemma kept_host py rule ar st out hosts h : schemes_valid rule -> tidy st -> normalize_url st <> [] -> ~ In 92 (normalize_url st) ->
  kept py rule ar st out -> allowed_hosts rule = Some hosts -> browser_host out = Some h -> good_host hosts h.
Proof.
  intros Hv Ht Hn H92 Hk Hh Hb.
  assert (Hnn : ~ protocol_relative out) by exact (kept_not_network _ _ _ _ _ Hv Ht Hn H92 Hk).
  assert (Hnone : browser_scheme out = None -> False).
  { intros Hs. unfold browser_host, browser_authority in Hb. unfold browser_scheme in Hs. destruct (scheme_start (url_input out)) as [p|] eqn:E; [destruct p; discriminate Hs|].
    destruct (url_input out) as [|a [|b t]] eqn:Ei; try discriminate. destruct (slash a) eqn:Ea; [|discriminate]. destruct (slash b) eqn:Eb; [|discriminate].
    apply Hnn. split; [unfold browser_scheme; rewrite Ei, E; reflexivity|]. exists a, b, t. auto. }
  assert (Hin92 : forall x, In x st -> x = 92 -> False).
  { intros x Hx ->. apply H92. rewrite normalize_filter. apply filter_In. split; [exact Hx|reflexivity]. }
  destruct Hk as [Hf _|r Hss _ _ Hin Hm|sch Hg Hin _ _ Hno _|sch Hg Hin _ Hm|Hg _ Hf Hs].
  - exfalso. destruct (browser_scheme st) eqn:E; [|auto]. destruct (browser_scheme_head _ _ Ht E) as (c & t & Ec & Ha). apply starts1 in Hf. destruct Hf as (x & Hx). rewrite (tidy_head _ _ _ Ht Ec) in Hx. injection Hx as -> _. discriminate Ha.
  - specialize (Hm hosts Hh). pose proof (Hv _ Hin) as Hvs. destruct (valid_scheme_facts _ Hvs) as (Hc & Hfc & Hl).
    assert (Htr : tidy (lower r ++ 58 :: st)%list).
    { destruct Ht as (T1 & T2 & T3). rewrite control_false in T1. split; [|split].
      - apply control_false. intros x Hx. apply in_app_iff in Hx. destruct Hx as [Hx|[<-|Hx]]; [|lia|apply T1; exact Hx]. rewrite forallb_forall in Hfc. specialize (Hfc x Hx). apply scheme_char_range in Hfc. lia.
      - intros d t' E. destruct Hc as (c & t0 & Ec & Ha). rewrite Ec in E. cbn [app] in E. injection E as <- _. unfold is_alpha_ascii, is_upper_ascii, is_lower_ascii in Ha. lia.
      - intros d t' E. assert (Hst : st <> []) by (intros ->; apply Hn; reflexivity). destruct (exists_last Hst) as (s' & x & Es). rewrite Es in E.
        replace (lower r ++ 58 :: s' ++ [x])%list with ((lower r ++ 58 :: s') ++ [x])%list in E by (rewrite <- app_assoc; reflexivity). apply app_inj_tail in E. destruct E as [_ <-]. exact (T3 x s' Es). }
    destruct (host_matches py (lower r) st hosts Hc Hfc Htr Hm) as (netloc & t & Est & Hne & Hns & Hstop & Hws & Hgood).
    assert (Enorm : normalize_url st = (47 :: 47 :: netloc ++ normalize_url t)%list).
    { rewrite Est. change (47 :: 47 :: netloc ++ t)%list with ([47; 47] ++ netloc ++ t)%list. rewrite !normalize_app. rewrite (normalize_id netloc); [reflexivity|].
      intros c Hc'. destruct (ws_or_control c) eqn:E; [|reflexivity]. assert (existsb ws_or_control netloc = true) by (apply existsb_exists; eauto). congruence. }
    pose proof (network_tidy _ st Hvs Ht Hn) as Htt. rewrite Enorm in Htt, Hb.
    unfold browser_host in Hb. rewrite browser_authority_netloc in Hb; auto.
    + intros c t' Et. destruct t as [|d t2]; [discriminate Et|]. pose proof (Hstop d t2 eq_refl) as Hd.
      rewrite normalize_filter in Et. cbn [filter] in Et. replace (ws_or_control d) with false in Et by (unfold ends_authority, ws_or_control in *; cbn in Hd; lia). cbn [negb] in Et. injection Et as <- _. exact Hd.
    + intros Hi. apply (Hin92 92); [|reflexivity]. rewrite Est. right. right. apply in_or_app. left. exact Hi.
  - congruence.
  - destruct (browser_scheme st) as [s|] eqn:Ebs; [|exfalso; auto]. specialize (Hm hosts Hh).
    unfold browser_scheme in Ebs. rewrite (tidy_input st Ht) in Ebs. destruct (scheme_start st) as [[sc rest]|] eqn:E; [|discriminate].
    destruct (scheme_start_Some _ _ _ E) as (raw & Est & _ & Hfr & Hal). rewrite Est in Hm, Ht, Hb.
    destruct (host_matches py raw rest hosts Hal Hfr Ht Hm) as (netloc & t & Er & Hne & Hns & Hstop & Hws & Hgood).
    rewrite Er in *. unfold browser_host in Hb. rewrite browser_authority_netloc in Hb; auto.
    intros Hi. apply (Hin92 92); [|reflexivity]. rewrite Est. apply in_or_app. right. right. right. right. apply in_or_app. left. exact Hi.
  - exfalso. destruct (browser_scheme st) eqn:E; [|auto]. apply (browser_get_scheme _ _ Ht) in E. congruence.
Qed.

(* ---------- from prepared values to the API ---------- *)
Definition prepared (py : urllib) (value tag attr : str) (f : option url_filter_t) (v : str) : Prop :=
  match f with Some f => exists w, f tag attr value = Some w /\ v = strip_invisible w | None => v = strip_invisible value end.
Lemma sanitize_inv py rule value tag attr h ar px f out : sanitize_url_value py rule value tag attr h ar px f = out -> out <> Drop ->
  exists v, prepared py value tag attr f v /\ sanitize_prepared py rule v h ar px = out.
Proof.
  unfold sanitize_url_value, prepared. destruct f as [f|]; [destruct (f tag attr value) as [w|]; [|congruence]|]; intros H _; eexists; split; eauto.
Qed.

Lemma c15 py rule value tag attr ar px f out hosts h : schemes_valid rule -> allowed_hosts rule = Some hosts ->
  sanitize_url_value py rule value tag attr HAllow ar px f = Keep out -> browser_host out = Some h -> good_host hosts h.
Proof.
  intros Hv Hh H Hb. apply sanitize_inv in H; [|discriminate]. destruct H as (v & _ & H). apply sanitize_kept in H. destruct H as (H1 & H2 & H3 & H4).
  exact (kept_host _ _ _ _ _ _ _ Hv H1 H2 H3 H4 Hh Hb).
Qed.

Lemma c14 py rule value tag attr ar px f out : schemes_valid rule ->
  sanitize_url_value py rule value tag attr HAllow ar px f = Keep out -> ~ protocol_relative out.
Proof.
  intros Hv H. apply sanitize_inv in H; [|discriminate]. destruct H as (v & _ & H). apply sanitize_kept in H. destruct H as (H1 & H2 & H3 & H4).
  exact (kept_not_network _ _ _ _ _ Hv H1 H2 H3 H4).
Qed.

Lemma filter_comm {A} (p q : A -> bool) l : filter p (filter q l) = filter q (filter p l).
Proof. induction l as [|x l IH]; [reflexivity|]. cbn [filter]. destruct (q x) eqn:Eq, (p x) eqn:Ep; cbn [filter]; rewrite ?Eq, ?Ep, IH; reflexivity. Qed.
Lemma strip_invisible_filter s : strip_invisible s = filter (fun c => negb (is_invisible c)) s.
Proof.
  unfold strip_invisible. destruct (is_ascii s) eqn:Ea.
  - symmetry. apply filter_all. intros c Hc. unfold is_ascii in Ea. rewrite forallb_forall in Ea. specialize (Ea c Hc). unfold is_ascii_char in Ea.
    unfold is_invisible, in_ranges, invisible_ranges. cbn [existsb fst snd]. lia.
  - destruct (existsb is_invisible s) eqn:E; [reflexivity|]. symmetry. apply filter_all. intros c Hc. destruct (is_invisible c) eqn:Ec; [|reflexivity].
    assert (existsb is_invisible s = true) by (apply existsb_exists; eauto). congruence.
Qed.
Lemma filter_filter_sub {A} (p q : A -> bool) l : (forall x, p x = true -> q x = true) -> filter p (filter q l) = filter p l.
Proof.
  intros H. induction l as [|x l IH]; [reflexivity|]. cbn [filter]. destruct (q x) eqn:E; cbn [filter].
  - rewrite IH. reflexivity.
  - destruct (p x) eqn:Ep; [rewrite (H x Ep) in E; discriminate|exact IH].
Qed.

Lemma normalize_input v a b t : url_input v = a :: b :: t -> slash a = true -> slash b = true -> exists t', normalize_url v = a :: b :: t'.
Proof.
  intros H Ha Hb. unfold url_input in H. destruct (strip_split c0_or_space v) as (w1 & w2 & E & H1 & H2). rewrite E. rewrite !normalize_app.
  assert (Hw : forall w, forallb c0_or_space w = true -> normalize_url w = []).
  { intros w Hw. rewrite normalize_filter. clear -Hw. induction w as [|x w IH]; [reflexivity|]. cbn [forallb] in Hw. apply andb_prop in Hw. destruct Hw as [Hx Hw]. cbn [filter].
    unfold ws_or_control, c0_or_space in *. rewrite Hx. cbn. apply IH. exact Hw. }
  rewrite (Hw w1 H1), (Hw w2 H2). cbn [app]. rewrite app_nil_r. rewrite normalize_filter.
  rewrite <- (filter_filter_sub (fun c => negb (ws_or_control c)) (fun c => negb (tab_or_newline c))) by (intros x; unfold ws_or_control, tab_or_newline; lia).
  rewrite H. cbn [filter]. replace (ws_or_control a) with false by (unfold ws_or_control, slash in *; lia). replace (ws_or_control b) with false by (unfold ws_or_control, slash in *; lia). cbn [negb]. eauto.
Qed.

Lemma slash_not_space a : slash a = true -> is_space a = false /\ is_invisible a = false.
Proof. intros H. assert (a = 47 \/ a = 92) as [->| ->] by (unfold slash in H; lia); split; reflexivity. Qed.

(* a value a browser takes for protocol-relative *)
Lemma c14_resolved py rule value tag attr ar px out : schemes_valid rule -> protocol_relative value ->
  sanitize_url_value py rule value tag attr HAllow ar px None = Keep out ->
  exists r rest, resolve_protocol_relative rule = Some r /\ In (lower r) (allowed_schemes rule) /\ out = (lower r ++ 58 :: 47 :: 47 :: rest)%list.
Proof.
  intros Hv (_ & a & b & t & E & Ha & Hb) H. apply sanitize_inv in H; [|discriminate]. destruct H as (v & Hp & H). cbn in Hp. subst v.
  apply sanitize_kept in H. destruct H as (Ht & Hn & H92 & Hk).
  destruct (normalize_input value a b t E Ha Hb) as (t1 & E1). destruct (slash_not_space a Ha) as [Sa Ia]. destruct (slash_not_space b Hb) as [Sb Ib].
  assert (E2 : exists t2, normalize_url (strip_invisible value) = a :: b :: t2).
  { rewrite strip_invisible_filter, normalize_filter, filter_comm, <- normalize_filter, E1. cbn [filter]. rewrite Ia, Ib. cbn [negb]. eauto. }
  destruct E2 as (t2 & E2). destruct (strip_split is_space (strip_invisible value)) as (w1 & w2 & Es & S1 & S2). fold (strip (strip_invisible value)) in Es.
  assert (E3 : exists t3, normalize_url (strip (strip_invisible value)) = a :: b :: t3).
  { rewrite Es in E2. rewrite !normalize_app in E2. set (m := normalize_url (strip (strip_invisible value))) in *.
    assert (G : forall w x, forallb is_space w = true -> In x (normalize_url w) -> is_space x = true).
    { intros w x Hw Hx. rewrite normalize_filter in Hx. apply filter_In in Hx. destruct Hx as [Hx _]. rewrite forallb_forall in Hw. exact (Hw x Hx). }
    destruct (normalize_url w1) as [|x w1'] eqn:N1.
    - cbn [app] in E2. destruct m as [|m1 [|m2 m3]]; [congruence| |].
      + cbn [app] in E2. injection E2 as <- E2. assert (Hx : In b (normalize_url w2)) by (rewrite E2; left; reflexivity). apply (G w2 b S2) in Hx. congruence.
      + cbn [app] in E2. injection E2 as <- <- E2. eauto.
    - cbn [app] in E2. injection E2 as -> _. assert (Hx : In a (normalize_url w1)) by (rewrite N1; left; reflexivity). apply (G w1 a S1) in Hx. congruence. }
  destruct E3 as (t3 & E3). rewrite E3 in H92.
  assert (a = 47) by (unfold slash in Ha; destruct (N.eqb_spec a 92) as [->|]; [exfalso; apply H92; left; reflexivity|lia]).
  assert (b = 47) by (unfold slash in Hb; destruct (N.eqb_spec b 92) as [->|]; [exfalso; apply H92; right; left; reflexivity|lia]). subst a b.
  assert (Hgs : get_scheme (normalize_url (strip (strip_invisible value))) = None).
  { rewrite E3. unfold get_scheme. destruct (scheme_like_prefix (47 :: 47 :: t3)) as [p|] eqn:Ep; [|reflexivity].
    unfold scheme_like_prefix in Ep. destruct (find_char 58 (47 :: 47 :: t3)) as [[|i]|]; try discriminate. destruct (Nat.leb _ _); [discriminate|]. injection Ep as <-. reflexivity. }
  destruct Hk as [Hf _|r Hss Hr _ Hin _|sch Hg _ _ _ _ _|sch Hg _ _ _|_ _ _ Hss]; try congruence.
  - rewrite E3 in Hf. discriminate Hf.
  - exists r, t3. rewrite E3. auto.
  - rewrite E3 in Hss. discriminate Hss.
Qed.

(* ---------- C16 ---------- *)
Lemma finish_strip px a b : finish HStrip px a b = Drop. Proof. reflexivity. Qed.
Lemma sanitize_prepared_strip py rule v ar px : sanitize_prepared py rule v HStrip ar px = Drop.
Proof.
  unfold sanitize_prepared. cbv zeta. rewrite !finish_strip.
  destruct (existsb control_char (strip v)); [reflexivity|]. destruct (normalize_url (strip v)) as [|c n]; [reflexivity|].
  repeat match goal with |- (if ?b then _ else _) = Drop => destruct b; try reflexivity end.
  - destruct (resolve_protocol_relative rule) as [[|x r]|]; try reflexivity.
    repeat match goal with |- (if ?b then _ else _) = Drop => destruct b; try reflexivity end.
  - destruct (get_scheme (c :: n)); repeat match goal with |- (if ?b then _ else _) = Drop => destruct b; try reflexivity end.
    all: try (destruct (allowed_hosts rule); [reflexivity|]; destruct (negb ar); reflexivity).
Qed.
Lemma c16_strip py rule value tag attr ar px f : sanitize_url_value py rule value tag attr HStrip ar px f = Drop.
Proof. unfold sanitize_url_value. destruct f as [f|]; [destruct (f tag attr value); [|reflexivity]|]; apply sanitize_prepared_strip. Qed.

Definition proxied (px : option url_proxy) (o : outcome) : Prop :=
  match o with
  | Drop => True
  | Err => exists p, px = Some p
  | Keep out => exists p x, px = Some p /\ proxy_url_value p x = Keep out
  end.
Lemma finish_proxy px a b : proxied px (finish HProxy px a b).
Proof. cbn. destruct px as [p|]; [|exact I]. unfold proxied. destruct (proxy_url_value p a) eqn:E; [exact I|eauto|eauto]. Qed.
Lemma sanitize_prepared_proxy py rule v ar px : proxied px (sanitize_prepared py rule v HProxy ar px).
Proof.
  unfold sanitize_prepared. cbv zeta. 
  destruct (existsb control_char (strip v)); [exact I|]. destruct (normalize_url (strip v)) as [|c n]; [exact I|].
  repeat match goal with |- proxied _ (if ?b then _ else _) => destruct b; try exact I; try apply finish_proxy end.
  - destruct (resolve_protocol_relative rule) as [[|x r]|]; try exact I.
    repeat match goal with |- proxied _ (if ?b then _ else _) => destruct b; try exact I; try apply finish_proxy end.
  - destruct (get_scheme (c :: n)); repeat match goal with |- proxied _ (if ?b then _ else _) => destruct b; try exact I; try apply finish_proxy end.
    all: try (destruct (allowed_hosts rule); [exact I|]; destruct (negb ar); [exact I|apply finish_proxy]).
Qed.
Lemma quote0_byte_decode b t : b < 256 -> percent_decode (quote0_byte b ++ t)%list = option_map (cons b) (percent_decode t).
Proof.
  intros Hb. unfold quote0_byte. destruct (is_alnum_ascii b || mem b (u "_.-~")) eqn:E.
  - cbn [app percent_decode]. assert (b <> 37 /\ b < 128).
    { apply (quote_safe_small b). unfold quote_safe. apply orb_prop in E. destruct E as [-> | ->]; [reflexivity|rewrite orb_true_r; reflexivity]. }
    replace (b =? 37) with false by lia. replace (b <? 128) with true by lia. reflexivity.
  - pose proof (quote_byte_decode b t Hb) as H. unfold quote_byte in H. cbn [app percent_decode]. change (37 =? 37) with true. cbv iota.
    assert (Hh : forall d, d < 16 -> JsSpec.hex_digit (hex_upper d) = Some d).
    { intros d Hd. unfold hex_upper, JsSpec.hex_digit. destruct (d <? 10) eqn:Ed.
      - replace ((48 <=? 48 + d) && (48 + d <=? 57)) with true by lia. f_equal. lia.
      - replace ((48 <=? 55 + d) && (55 + d <=? 57)) with false by lia. replace ((65 <=? 55 + d) && (55 + d <=? 70)) with true by lia. f_equal. lia. }
    assert (b / 16 < 16) by (apply N.div_lt_upper_bound; lia). assert (b mod 16 < 16) by (apply N.mod_lt; lia).
    rewrite !Hh by assumption. f_equal. f_equal. pose proof (N.div_mod b 16). lia.
Qed.
Lemma quote0_decodes v q : unicode v -> quote0 v = Some q -> exists bytes, percent_decode q = Some bytes /\ utf8_decode bytes = Some v.
Proof.
  intros Hu H. unfold quote0 in H. destruct (utf8_encode v) as [bs|] eqn:E; [|discriminate]. injection H as <-.
  destruct (utf8_decode_encode _ Hu _ E) as [H1 H2]. exists bs. split; [|exact H1]. clear -H2. induction H2 as [|b bs Hb Hbs IH]; [reflexivity|]. cbn [flat_map]. rewrite quote0_byte_decode by exact Hb. rewrite IH. reflexivity.
Qed.
Lemma quote0_alphabet v q : unicode v -> quote0 v = Some q -> forall c, In c q -> is_alnum_ascii c = true \/ In c (u "_.-~%").
Proof.
  intros Hu H c Hc. unfold quote0 in H. destruct (utf8_encode v) as [bs|] eqn:E; [|discriminate]. injection H as <-.
  destruct (utf8_decode_encode _ Hu _ E) as [_ H2]. apply in_flat_map in Hc. destruct Hc as (b & Hb & Hx). rewrite Forall_forall in H2. specialize (H2 b Hb). cbv beta in H2.
  unfold quote0_byte in Hx. destruct (is_alnum_ascii b) eqn:Ea; cbn [orb] in Hx; [destruct Hx as [<-|[]]; auto|]. destruct (mem b (u "_.-~")) eqn:Em.
  - destruct Hx as [<-|[]]. right. apply mem_In in Em. cbn in Em |- *. tauto.
  - assert (b / 16 < 16) by (apply N.div_lt_upper_bound; lia). assert (b mod 16 < 16) by (apply N.mod_lt; lia).
    assert (Hh : forall d, d < 16 -> is_alnum_ascii (hex_upper d) = true) by (intros d Hd; unfold hex_upper, is_alnum_ascii, is_alpha_ascii, is_upper_ascii, is_digit_ascii, is_lower_ascii; destruct (d <? 10) eqn:Ed; lia).
    destruct Hx as [<-|[<-|[<-|[]]]]; [right; cbn; tauto|left; apply Hh; assumption|left; apply Hh; assumption].
Qed.
Lemma c16_proxy py rule value tag attr ar px f out : sanitize_url_value py rule value tag attr HProxy ar px f = Keep out ->
  exists p x a b, px = Some p /\ quote0 (px_param p) = Some a /\ quote0 x = Some b /\
    out = (px_url p ++ (if mem 63 (px_url p) then [38] else [63]) ++ a ++ [61] ++ b)%list.
Proof.
  intros H. apply sanitize_inv in H; [|discriminate]. destruct H as (v & _ & H). pose proof (sanitize_prepared_proxy py rule v ar px) as G. rewrite H in G.
  destruct G as (p & x & Hp & Hx). unfold proxy_url_value in Hx. destruct (quote0 (px_param p)) as [a|] eqn:Ea; [|discriminate]. destruct (quote0 x) as [b|] eqn:Eb; [|discriminate].
  injection Hx as <-. exists p, x, a, b. auto.
Qed.

(* ---------- C17 ---------- *)
Lemma fragment_starts st : tidy st -> fragment_only st -> starts [35] (normalize_url st) = true.
Proof. intros Ht (t & E). rewrite (tidy_input st Ht) in E. rewrite (tidy_head st 35 t Ht E). reflexivity. Qed.
Lemma c17_fragment py rule value tag attr ar px f out : schemes_valid rule -> allow_fragment rule = false ->
  sanitize_url_value py rule value tag attr HAllow ar px f = Keep out -> ~ fragment_only out.
Proof.
  intros Hv Haf H Hf. apply sanitize_inv in H; [|discriminate]. destruct H as (v & _ & H). apply sanitize_kept in H. destruct H as (Ht & Hn & _ & Hk).
  assert (G : get_scheme (normalize_url (strip v)) <> None -> starts [35] (normalize_url (strip v)) = true -> False).
  { intros Hg Hs. apply starts1 in Hs. destruct Hs as (t & Et). rewrite Et in Hg. apply Hg. unfold get_scheme. destruct (scheme_like_prefix (35 :: t)) as [p|] eqn:Ep; [|reflexivity].
    unfold scheme_like_prefix in Ep. destruct (find_char 58 (35 :: t)) as [[|i]|]; try discriminate. destruct (Nat.leb _ _); [discriminate|]. injection Ep as <-. reflexivity. }
  destruct Hk as [_ Hff|r _ _ _ Hin _|sch Hg _ _ _ _ _|sch Hg _ _ _|_ _ Hff _]; [congruence| | | |].
  - pose proof (Hv _ Hin) as Hvs. pose proof (network_tidy _ _ Hvs Ht Hn) as Htt. destruct Hf as (t & E). rewrite (tidy_input _ Htt) in E.
    destruct (valid_scheme_facts _ Hvs) as ((c & t' & Ec & Ha) & _). rewrite Ec in E. cbn [app] in E. injection E as -> _. discriminate Ha.
  - apply (G ltac:(congruence)). apply fragment_starts; assumption.
  - apply (G ltac:(congruence)). apply fragment_starts; assumption.
  - apply (fragment_starts _ Ht) in Hf. congruence.
Qed.

Lemma scheme_like_Some v p : scheme_like_prefix v = Some p -> exists rest, v = (p ++ 58 :: rest)%list.
Proof.
  unfold scheme_like_prefix. destruct (find_char 58 v) as [[|i]|] eqn:E; try discriminate. destruct (Nat.leb _ _); [discriminate|]. intros H. assert (Hp : p = firstn (S i) v) by congruence. subst p.
  apply find_char_Some in E. destruct E as (a & b & E & Hl & _). rewrite E. exists b. rewrite firstn_app, <- Hl, Nat.sub_diag, firstn_all. cbn. rewrite app_nil_r. reflexivity.
Qed.
Lemma get_scheme_browser st sch : tidy st -> (forall c, In c st -> c <> 32) -> get_scheme (normalize_url st) = Some sch -> browser_scheme st = Some sch.
Proof.
  intros Ht Hs Hg. rewrite normalize_id in Hg.
  2:{ intros c Hc. destruct Ht as (T & _). rewrite control_false in T. specialize (T c Hc). specialize (Hs c Hc). unfold ws_or_control. lia. }
  unfold get_scheme in Hg. destruct (scheme_like_prefix st) as [p|] eqn:E; [|discriminate]. destruct (is_valid_scheme p) eqn:Ev; [|discriminate]. injection Hg as <-.
  apply valid_scheme_code in Ev. destruct Ev as (c & t & Ep & Ha & Hf). destruct (scheme_like_Some _ _ E) as (rest & ->).
  unfold browser_scheme. rewrite (tidy_input _ Ht). unfold scheme_start. rewrite Ep at 1. cbn [app]. rewrite Ha. rewrite scheme_state_app by exact Hf. rewrite lower_scheme by exact Hf. reflexivity.
Qed.
(* values without spaces *)
Lemma c17_relative py rule value tag attr px f out : schemes_valid rule ->
  sanitize_url_value py rule value tag attr HAllow false px f = Keep out -> ~ In 32 out ->
  (exists s, browser_scheme out = Some s /\ In s (allowed_schemes rule)) \/ fragment_only out.
Proof.
  intros Hv H H32. apply sanitize_inv in H; [|discriminate]. destruct H as (v & _ & H). apply sanitize_kept in H. destruct H as (Ht & Hn & _ & Hk).
  destruct Hk as [Hf _|r _ _ _ Hin _|sch _ _ _ _ _ Ha|sch Hg Hin _ _|_ Ha _ _]; try discriminate Ha.
  - right. apply starts1 in Hf. destruct Hf as (t & E). destruct (strip v) as [|c st] eqn:Es; [discriminate E|]. rewrite (tidy_head _ c st Ht eq_refl) in E. injection E as -> _. exists st. apply tidy_input. exact Ht.
  - left. exists (lower r). split; [|exact Hin]. pose proof (Hv _ Hin) as Hvs. pose proof (network_tidy _ _ Hvs Ht Hn) as Htt. destruct (valid_scheme_facts _ Hvs) as (Hc & Hf & Hl).
    unfold browser_scheme. rewrite (tidy_input _ Htt). unfold scheme_start. destruct Hc as (c & t' & Ec & Hca). rewrite Ec at 1. cbn [app]. rewrite Hca. rewrite scheme_state_app by exact Hf. rewrite Hl. reflexivity.
  - left. exists sch. split; [|exact Hin]. apply get_scheme_browser; auto. intros c Hc ->. apply H32. exact Hc.
Qed.
