(* Proofs: srcset and URL lists (C18), meta refresh (C19), the parse-time fast path (C20), default rules (C13),
   clean_url_value *)
From Coq Require Import Lia ZifyBool ZifyN ZifyNat.
From Verif Require Import Str StrFacts ListFacts UrlSpec PercentSpec EntityTable EntitiesModel SerializerModel UrlModel UrlProofs JsUrlProofs UrlHostProofs.
Open Scope N_scope.

(* ---------- characters of an accepted URL ---------- *)
Lemma html_ws_space c : html_ws c = true -> is_space c = true.
Proof.
  intros H. assert (Hc : c = 9 \/ c = 10 \/ c = 12 \/ c = 13 \/ c = 32) by (unfold html_ws in H; lia).
  destruct Hc as [->|[->|[->|[->| ->]]]]; reflexivity.
Qed.
Definition plain (s : str) : Prop := s <> [] /\ forall c, In c s -> is_space c = false /\ c <> 44.

Lemma ascii_check (P : N -> bool) : forallb P (map N.of_nat (seq 0 128)) = true -> forall c, c < 128 -> P c = true.
Proof. intros G c Hc. rewrite forallb_forall in G. apply G. apply in_map_iff. exists (N.to_nat c). split; [lia|]. apply in_seq. lia. Qed.
Lemma scheme_char_plain c : scheme_char c = true -> is_space c = false /\ c <> 44.
Proof.
  intros H. split.
  - assert (Hc : c < 128) by (apply scheme_char_range in H; lia).
    pose proof (ascii_check (fun c => implb (scheme_char c) (negb (is_space c))) ltac:(vm_compute; reflexivity) c Hc) as G. cbv beta in G.
    rewrite H in G. apply negb_true_iff. exact G.
  - intros ->. discriminate H.
Qed.
Lemma strip_invisible_incl s : incl (strip_invisible s) s.
Proof. rewrite strip_invisible_filter. intros c Hc. apply filter_In in Hc. tauto. Qed.
Lemma normalize_incl s : incl (normalize_url s) s.
Proof. rewrite normalize_filter. intros c Hc. apply filter_In in Hc. tauto. Qed.

Lemma kept_plain py rule ar st out : schemes_valid rule -> st <> [] -> (forall c, In c st -> is_space c = false /\ c <> 44) -> kept py rule ar st out -> plain out.
Proof.
  intros Hv Hne Hp Hk. destruct Hk as [Hf _|r Hss _ _ Hin _|sch Hg Hin _ _ _ _|sch Hg Hin _ _|Hg _ _ _]; try (split; assumption).
  destruct (valid_scheme_facts _ (Hv _ Hin)) as ((c & t & Ec & _) & Hf & _). split; [rewrite Ec; discriminate|].
  intros x Hx. apply in_app_iff in Hx. destruct Hx as [Hx|[<-|Hx]].
  - apply scheme_char_plain. rewrite forallb_forall in Hf. exact (Hf x Hx).
  - split; [reflexivity|discriminate].
  - apply Hp. exact (normalize_incl st x Hx).
Qed.
Lemma accepted_plain py rule tok tag attr ar px url : schemes_valid rule -> (forall c, In c tok -> is_space c = false /\ c <> 44) ->
  sanitize_url_value py rule tok tag attr HAllow ar px None = Keep url -> plain url.
Proof.
  intros Hv Hp H. unfold sanitize_url_value in H. apply sanitize_kept in H. destruct H as (_ & Hn & _ & Hk).
  refine (kept_plain _ _ _ _ _ Hv _ _ Hk).
  - intros E. rewrite E in Hn. apply Hn. reflexivity.
  - intros c Hc. apply Hp. apply strip_invisible_incl. exact (strip_incl _ _ c Hc).
Qed.

(* ---------- srcset ---------- *)
Definition descriptor_char (c : N) : bool := negb (is_space c || (c =? 44) || (c =? 40)).
Lemma descr_dec c : is_decimal c = true -> descriptor_char c = true.
Proof.
  intros H. assert (G : forallb (fun r => forallb (fun r2 => (snd r <? fst r2) || (snd r2 <? fst r)) ((44, 44) :: (40, 40) :: UnicodeTables.space_ranges)) UnicodeTables.decimal_ranges = true) by (vm_compute; reflexivity).
  unfold is_decimal, in_ranges in H. apply existsb_exists in H. destruct H as ([lo hi] & Hi & Hc). rewrite forallb_forall in G. specialize (G _ Hi). rewrite forallb_forall in G. cbn [fst snd] in *.
  unfold descriptor_char. apply negb_true_iff. rewrite !orb_false_iff. split; [split|].
  - destruct (is_space c) eqn:E; [|reflexivity]. unfold is_space, in_ranges in E. apply existsb_exists in E. destruct E as ([lo2 hi2] & Hi2 & Hc2).
    specialize (G (lo2, hi2) (or_intror (or_intror Hi2))). cbn [fst snd] in *. lia.
  - specialize (G (44, 44) (or_introl eq_refl)). cbn [fst snd] in *. lia.
  - specialize (G (40, 40) (or_intror (or_introl eq_refl))). cbn [fst snd] in *. lia.
Qed.
Lemma descr_digit c : is_digit_ascii c = true -> descriptor_char c = true.
Proof.
  intros H. apply descr_dec. rewrite is_decimal_digit; [exact H|]. unfold is_digit_ascii, is_ascii_char in *. lia.
Qed.
Lemma ends1 c s : ends [c] s = true -> exists t, s = (t ++ [c])%list.
Proof.
  unfold ends. cbn [rev app]. intros H. apply starts_spec in H. destruct H as (t & E). exists (rev t). rewrite <- (rev_involutive s), E. reflexivity.
Qed.
Lemma firstn_last {A} (t : list A) c : firstn (List.length (t ++ [c])%list - 1) (t ++ [c])%list = t.
Proof. rewrite app_length. cbn [List.length]. replace (List.length t + 1 - 1)%nat with (List.length t) by lia. rewrite firstn_app, Nat.sub_diag, firstn_all. cbn. apply app_nil_r. Qed.
Lemma decimal_all s : str_isdecimal s = true -> forallb descriptor_char s = true.
Proof.
  unfold str_isdecimal. destruct s as [|c t]; [discriminate|]. intros H. apply forallb_forall. intros x Hx. rewrite forallb_forall in H. apply descr_dec. exact (H x Hx).
Qed.
Lemma density_all s : density_number s = true -> forallb descriptor_char s = true.
Proof.
  unfold density_number. intros H. rewrite (drop_while_app is_digit_ascii s). rewrite forallb_app. apply andb_true_intro. split.
  - apply forallb_forall. intros x Hx. apply descr_digit. pose proof (take_while_all is_digit_ascii s) as Ht. rewrite forallb_forall in Ht. exact (Ht x Hx).
  - destruct (drop_while is_digit_ascii s) as [|c t]; [reflexivity|]. apply andb_prop in H. destruct H as [H Ht]. apply andb_prop in H. destruct H as [Hc _].
    apply N.eqb_eq in Hc. subst c. cbn [forallb]. change (descriptor_char 46) with true. cbn [andb]. apply forallb_forall. intros x Hx. apply descr_digit. rewrite forallb_forall in Ht. exact (Ht x Hx).
Qed.
Lemma descriptor_ok v d : sanitize_srcset_descriptor v = Some d -> forallb descriptor_char d = true.
Proof.
  unfold sanitize_srcset_descriptor. destruct v as [|c0 v0]; [intros H; injection H as <-; reflexivity|].
  destruct (split_ws (c0 :: v0)) as [|w [|? ?]]; try discriminate. cbv zeta. set (tok := lower w).
  destruct (ends (u "w") tok || ends (u "h") tok) eqn:E1.
  - destruct (negb (str_isdecimal (firstn (List.length tok - 1) tok)) || _) eqn:E2; [discriminate|]. intros H. assert (d = tok) by congruence. subst d.
    apply orb_false_iff in E2. destruct E2 as [E2 _]. apply negb_false_iff in E2. apply decimal_all in E2.
    apply orb_prop in E1. destruct E1 as [E1|E1]; apply ends1 in E1; destruct E1 as (t & Et); rewrite Et in *; rewrite firstn_last in E2; rewrite forallb_app, E2; reflexivity.
  - destruct (ends (u "x") tok) eqn:E3; [|discriminate]. destruct (density_number (firstn (List.length tok - 1) tok)) eqn:E2; [|discriminate]. cbn [negb]. destruct (density_zero _); [discriminate|].
    intros H. assert (d = tok) by congruence. subst d. apply density_all in E2. apply ends1 in E3. destruct E3 as (t & Et). rewrite Et in *. rewrite firstn_last in E2. rewrite forallb_app, E2. reflexivity.
Qed.

(* the serialization of one candidate *)
Definition cand_text (url d : str) : str := match d with [] => url | _ => (url ++ 32 :: d)%list end.
Lemma plain_first url c t : plain url -> url = c :: t -> is_space c = false.
Proof. intros [_ H] ->. apply H. left. reflexivity. Qed.
Lemma plain_last url c t : plain url -> url = (t ++ [c])%list -> is_space c = false.
Proof. intros [_ H] ->. apply H. apply in_or_app. right. left. reflexivity. Qed.
Lemma strip_cand url d : plain url -> forallb descriptor_char d = true -> strip (url ++ 32 :: d)%list = cand_text url d.
Proof.
  intros Hp Hd. unfold strip, cand_text. destruct d as [|e d'].
  - unfold strip_by, rstrip_by, lstrip_by. rewrite (drop_while_id is_space (url ++ [32])%list).
    + rewrite rev_app_distr. cbn [rev app drop_while]. change (is_space 32) with true. cbv iota. rewrite drop_while_id; [apply rev_involutive|].
      intros c t E. apply (plain_last url c (rev t) Hp). rewrite <- (rev_involutive url), E. reflexivity.
    + intros c t E. destruct url as [|x url]; [destruct Hp; congruence|]. cbn [app] in E. injection E as <- _. exact (plain_first _ _ _ Hp eq_refl).
  - apply strip_by_id.
    + intros c t E. destruct url as [|x url]; [destruct Hp; congruence|]. cbn [app] in E. injection E as <- _. exact (plain_first _ _ _ Hp eq_refl).
    + intros c t E. rewrite forallb_forall in Hd. assert (Hne : e :: d' <> []) by discriminate. destruct (exists_last Hne) as (dd & x & Ex). rewrite Ex in *.
      replace (url ++ 32 :: dd ++ [x])%list with ((url ++ 32 :: dd) ++ [x])%list in E by (rewrite <- app_assoc; reflexivity). apply app_inj_tail in E. destruct E as [_ <-].
      assert (Hi : In x (dd ++ [x])%list) by (apply in_or_app; right; left; reflexivity). specialize (Hd x Hi). unfold descriptor_char in Hd. destruct (is_space x); [discriminate Hd|reflexivity].
Qed.

Lemma skip_descriptors_text d rest : forallb descriptor_char d = true -> skip_descriptors false (d ++ 44 :: rest)%list = rest.
Proof.
  induction d as [|c d IH]; intros H; [reflexivity|]. cbn [forallb] in H. apply andb_prop in H. destruct H as [Hc Hd]. cbn [app skip_descriptors].
  unfold descriptor_char in Hc. destruct (N.eqb_spec c 44); [subst; discriminate Hc|]. replace (c =? 40) with false by (destruct (N.eqb_spec c 40); [subst; discriminate Hc|reflexivity]). apply IH. exact Hd.
Qed.
Lemma skip_descriptors_end d : forallb descriptor_char d = true -> skip_descriptors false d = [].
Proof.
  induction d as [|c d IH]; intros H; [reflexivity|]. cbn [forallb] in H. apply andb_prop in H. destruct H as [Hc Hd]. cbn [app skip_descriptors].
  unfold descriptor_char in Hc. destruct (N.eqb_spec c 44); [subst; discriminate Hc|]. replace (c =? 40) with false by (destruct (N.eqb_spec c 40); [subst; discriminate Hc|reflexivity]). apply IH. exact Hd.
Qed.

Lemma nonws_all url : plain url -> forallb (fun c => negb (html_ws c)) url = true.
Proof. intros [_ H]. apply forallb_forall. intros c Hc. apply negb_true_iff. destruct (html_ws c) eqn:E; [|reflexivity]. apply html_ws_space in E. destruct (H c Hc). congruence. Qed.
Lemma srcset_skip1 url t : plain url -> drop_while (fun c => html_ws c || comma c) (url ++ t)%list = (url ++ t)%list.
Proof.
  intros Hp. apply drop_while_id. intros c t' E. pose proof (nonws_all url Hp) as Hw. destruct Hp as [Hne H]. destruct url as [|x url]; [congruence|]. cbn [app] in E. injection E as <- _.
  cbn [forallb] in Hw. apply andb_prop in Hw. destruct Hw as [Hw _]. apply negb_true_iff in Hw. rewrite Hw. cbn [orb]. unfold comma. apply N.eqb_neq. apply (H x). left. reflexivity.
Qed.
Lemma srcset_go_skip k s : srcset_urls_go k (32 :: s) = srcset_urls_go k s.
Proof. destruct k; [reflexivity|]. cbn [srcset_urls_go drop_while]. change (html_ws 32 || comma 32) with true. reflexivity. Qed.
Lemma ends_comma_false url : plain url -> ends [44] url = false.
Proof.
  intros [_ H]. destruct (ends [44] url) eqn:E; [|reflexivity]. apply ends1 in E. destruct E as (t & ->). destruct (H 44); [apply in_or_app; right; left; reflexivity|congruence].
Qed.
Lemma ends_comma_true url : ends [44] (url ++ [44])%list = true.
Proof. unfold ends. rewrite rev_app_distr. reflexivity. Qed.
Lemma rev_drop_comma url : plain url -> rev (drop_while comma (rev (url ++ [44])%list)) = url.
Proof.
  intros Hp. rewrite rev_app_distr. cbn [rev app drop_while]. change (comma 44) with true. cbv iota. rewrite drop_while_id; [apply rev_involutive|].
  intros c t E. unfold comma. apply N.eqb_neq. destruct Hp as [_ H]. apply (H c). rewrite in_rev, E. left. reflexivity.
Qed.

Lemma srcset_step_last k url d : plain url -> forallb descriptor_char d = true -> srcset_urls_go (S k) (cand_text url d) = [url].
Proof.
  intros Hp Hd. cbn [srcset_urls_go]. cbv zeta. unfold cand_text. destruct d as [|e d'].
  - rewrite <- (app_nil_r url). rewrite srcset_skip1 by exact Hp.
    rewrite take_while_app_stop, drop_while_app_stop by (try discriminate; apply nonws_all; exact Hp). rewrite app_nil_r, ends_comma_false by exact Hp.
    rewrite match_nonempty by (destruct Hp; assumption). f_equal. destruct k; reflexivity.
  - rewrite srcset_skip1 by exact Hp. rewrite take_while_app_stop, drop_while_app_stop; [|apply nonws_all; exact Hp|intros c t E; injection E as <- _; reflexivity|apply nonws_all; exact Hp|intros c t E; injection E as <- _; reflexivity].
    rewrite ends_comma_false by exact Hp. destruct (url ++ 32 :: e :: d')%list eqn:E; [destruct url; discriminate|]. f_equal.
    assert (E2 : skip_descriptors false (32 :: e :: d') = []) by (change (skip_descriptors false (32 :: e :: d')) with (skip_descriptors false (e :: d')); apply skip_descriptors_end; exact Hd).
    rewrite E2. destruct k; reflexivity.
Qed.
Lemma srcset_step_more k url d rest : plain url -> forallb descriptor_char d = true ->
  srcset_urls_go (S k) (cand_text url d ++ u ", " ++ rest)%list = url :: srcset_urls_go k rest.
Proof.
  intros Hp Hd. cbn [srcset_urls_go]. cbv zeta. change (u ", ") with [44; 32]. unfold cand_text. destruct d as [|e d'].
  - rewrite srcset_skip1 by exact Hp. cbn [app].
    replace (url ++ 44 :: 32 :: rest)%list with ((url ++ [44]) ++ 32 :: rest)%list by (rewrite <- app_assoc; reflexivity).
    rewrite take_while_app_stop, drop_while_app_stop; try (intros c t E; injection E as <- _; reflexivity); try (rewrite forallb_app, nonws_all by exact Hp; reflexivity).
    rewrite ends_comma_true, rev_drop_comma by exact Hp. destruct ((url ++ [44]) ++ 32 :: rest)%list eqn:E; [destruct url; discriminate|]. f_equal. apply srcset_go_skip.
  - replace ((url ++ 32 :: e :: d') ++ [44; 32] ++ rest)%list with (url ++ 32 :: (e :: d') ++ 44 :: 32 :: rest)%list by (rewrite <- app_assoc; reflexivity).
    rewrite srcset_skip1 by exact Hp. rewrite take_while_app_stop, drop_while_app_stop; [|apply nonws_all; exact Hp|intros c t E; injection E as <- _; reflexivity|apply nonws_all; exact Hp|intros c t E; injection E as <- _; reflexivity].
    rewrite ends_comma_false by exact Hp. destruct (url ++ 32 :: (e :: d') ++ 44 :: 32 :: rest)%list eqn:E; [destruct url; discriminate|]. f_equal.
    change (skip_descriptors false (32 :: (e :: d') ++ 44 :: 32 :: rest)) with (skip_descriptors false ((e :: d') ++ 44 :: 32 :: rest)%list). rewrite skip_descriptors_text by exact Hd. apply srcset_go_skip.
Qed.

Lemma srcset_join l : forall k, Forall (fun p => plain (fst p) /\ forallb descriptor_char (snd p) = true) l -> (List.length l <= k)%nat ->
  srcset_urls_go k (join (u ", ") (map (fun p => cand_text (fst p) (snd p)) l)) = map fst l.
Proof.
  induction l as [|[url d] l IH]; intros k HF Hk; [destruct k; reflexivity|]. apply Forall_inv in HF as Hp. apply Forall_inv_tail in HF. cbn [fst snd] in Hp. destruct Hp as [Hp Hd].
  cbn [List.length] in Hk. destruct k as [|k]; [lia|]. destruct l as [|p l].
  - cbn [map join fst snd]. apply srcset_step_last; assumption.
  - assert (E : join (u ", ") (map (fun p => cand_text (fst p) (snd p)) ((url, d) :: p :: l)) =
                (cand_text url d ++ u ", " ++ join (u ", ") (map (fun p => cand_text (fst p) (snd p)) (p :: l)))%list) by reflexivity.
    rewrite E, srcset_step_more by assumption. cbn [map fst]. f_equal. apply (IH k HF). lia.
Qed.
Lemma cand_text_len url d : plain url -> (1 <= List.length (cand_text url d))%nat.
Proof. intros [Hne _]. unfold cand_text. destruct url; [congruence|]. destruct d; cbn; lia. Qed.
Lemma join_len sep l : Forall (fun s => (1 <= List.length s)%nat) l -> (List.length l <= List.length (join sep l))%nat.
Proof.
  induction l as [|w l IH]; intros H; [cbn; lia|]. apply Forall_inv in H as Hw. apply Forall_inv_tail in H. specialize (IH H). destruct l as [|w2 l].
  - cbn [join List.length]. lia.
  - change (join sep (w :: w2 :: l)) with (w ++ sep ++ join sep (w2 :: l))%list. rewrite !app_length. cbn [List.length] in *. lia.
Qed.

Lemma split_char_no c s l : In l (split_char c s) -> ~ In c l.
Proof.
  revert l. induction s as [|x s IH]; intros l H; cbn [split_char] in H.
  - destruct H as [<-|[]]. intros [].
  - destruct (N.eqb_spec x c) as [->|Hx].
    + destruct H as [<-|H]; [intros []|exact (IH l H)].
    + destruct (split_char c s) as [|w ws] eqn:E.
      * destruct H as [<-|[]]. intros [H|[]]. congruence.
      * destruct H as [<-|H]; [|exact (IH l (or_intror H))]. intros [H|H]; [congruence|]. exact (IH w (or_introl eq_refl) H).
Qed.

(* the URL tokens of a srcset value: first word of every nonempty comma-separated piece *)
Definition srcset_tokens (pieces : list str) : list str :=
  map first_word (filter (fun s => negb (match s with [] => true | _ => false end)) (map strip pieces)).

Lemma sanitize_candidates_ok py r tag attr ar px l out : schemes_valid r -> Forall (fun s => ~ In 44 s) l ->
  sanitize_candidates py r tag attr HAllow ar px l = Some (Some out) ->
  exists ps, out = map (fun p => cand_text (fst p) (snd p)) ps /\ Forall (fun p => plain (fst p) /\ forallb descriptor_char (snd p) = true) ps /\
    Forall2 (fun tok url => sanitize_url_value py r tok tag attr HAllow ar px None = Keep url) (srcset_tokens l) (map fst ps).
Proof.
  intros Hv. revert out. induction l as [|s l IH]; intros out HF H; cbn [sanitize_candidates] in H.
  - injection H as <-. exists []. repeat split; constructor.
  - apply Forall_inv in HF as Hs. apply Forall_inv_tail in HF. unfold sanitize_candidate in H. unfold srcset_tokens. cbn [map filter].
    destruct (strip s) as [|c0 c] eqn:Ec.
    + cbn [negb]. apply IH; assumption.
    + cbn [negb map]. set (tok := first_word (c0 :: c)) in *.
      assert (Htok : forall x, In x tok -> is_space x = false /\ x <> 44).
      { intros x Hx. split.
        - unfold tok, first_word in Hx. pose proof (take_while_all (fun c => negb (is_space c)) (c0 :: c)) as Ha. rewrite forallb_forall in Ha. specialize (Ha x Hx). apply negb_true_iff in Ha. exact Ha.
        - intros ->. apply Hs. apply (strip_incl is_space s). fold (strip s). rewrite Ec. rewrite (drop_while_app (fun c => negb (is_space c)) (c0 :: c)). apply in_or_app. left. exact Hx. }
      destruct (sanitize_url_value py r tok tag attr HAllow ar px None) as [|url|] eqn:Eu; try discriminate.
      pose proof (accepted_plain _ _ _ _ _ _ _ _ Hv Htok Eu) as Hp.
      destruct (sanitize_srcset_descriptor _) as [d|] eqn:Ed; [|discriminate]. pose proof (descriptor_ok _ _ Ed) as Hd.
      rewrite strip_cand in H by assumption. destruct (sanitize_candidates py r tag attr HAllow ar px l) as [[l'|]|] eqn:El; try discriminate. injection H as <-.
      destruct (IH l' HF eq_refl) as (ps & -> & H1 & H2). exists ((url, d) :: ps). split; [reflexivity|]. split; [constructor; [split; assumption|exact H1]|]. cbn [map fst]. constructor; [exact Eu|exact H2].
Qed.

Lemma c18_srcset py p r tag attr value out : schemes_valid r -> effective_handling p r = HAllow -> sanitize_srcset py p r tag attr value = Keep out ->
  exists v, list_filter p tag attr value = Some v /\
    Forall2 (fun tok url => sanitize_url_value py r tok tag attr HAllow (effective_allow_relative p r) (effective_proxy p r) None = Keep url)
      (srcset_tokens (split_char 44 (strip v))) (srcset_urls out).
Proof.
  intros Hv Hh H. unfold sanitize_srcset in H. rewrite Hh in H. destruct (list_filter p tag attr value) as [v|]; [|discriminate]. exists v. split; [reflexivity|].
  destruct (strip v) as [|c0 s] eqn:Es; [discriminate|]. rewrite <- Es in *.
  destruct (sanitize_candidates py r tag attr HAllow _ _ (split_char 44 (strip v))) as [[l|]|] eqn:El; try discriminate.
  assert (Hout : out = join (u ", ") l) by (destruct l; [discriminate|congruence]). subst out.
  apply sanitize_candidates_ok in El; [|exact Hv|apply Forall_forall; intros x Hx; exact (split_char_no 44 _ x Hx)].
  destruct El as (ps & -> & H1 & H2). unfold srcset_urls. rewrite srcset_join; [exact H2|exact H1|].
  etransitivity; [|apply join_len].
  - rewrite map_length. apply le_n.
  - apply Forall_forall. intros x Hx. apply in_map_iff in Hx. destruct Hx as (q & <- & Hq). rewrite Forall_forall in H1. apply cand_text_len. apply (H1 q Hq).
Qed.

(* ---------- whitespace separated lists ---------- *)
Lemma split_by_word p w t acc : forallb (fun c => negb (p c)) w = true -> split_by_go p acc (w ++ t)%list = split_by_go p (rev w ++ acc)%list t.
Proof.
  revert acc. induction w as [|c w IH]; intros acc H; [reflexivity|]. cbn [forallb] in H. apply andb_prop in H. destruct H as [Hc Hw]. apply negb_true_iff in Hc.
  cbn [app split_by_go]. rewrite Hc, (IH _ Hw). cbn [rev]. rewrite <- app_assoc. reflexivity.
Qed.
Lemma space_urls_join l : Forall plain l -> space_urls (join [32] l) = l.
Proof.
  unfold space_urls. induction l as [|w l IH]; intros H; [reflexivity|]. apply Forall_inv in H as Hw. apply Forall_inv_tail in H. specialize (IH H).
  assert (Hr : rev w <> []) by (intros E; destruct Hw as [Hw _]; apply Hw; rewrite <- (rev_involutive w), E; reflexivity).
  destruct l as [|w2 l].
  - cbn [join]. rewrite <- (app_nil_r w) at 1. rewrite split_by_word by (apply nonws_all; exact Hw). rewrite app_nil_r. cbn [split_by_go]. destruct (rev w) eqn:E; [congruence|]. rewrite <- E, rev_involutive. reflexivity.
  - change (join [32] (w :: w2 :: l)) with (w ++ 32 :: join [32] (w2 :: l))%list. rewrite split_by_word by (apply nonws_all; exact Hw). rewrite app_nil_r.
    cbn [split_by_go]. change (html_ws 32) with true. cbv iota. destruct (rev w) eqn:E; [congruence|]. rewrite <- E, rev_involutive. f_equal. exact IH.
Qed.
Lemma split_by_go_no p acc s l : forallb (fun c => negb (p c)) acc = true -> In l (split_by_go p acc s) -> forallb (fun c => negb (p c)) l = true.
Proof.
  assert (Hrev : forall a : str, forallb (fun c => negb (p c)) a = true -> forallb (fun c => negb (p c)) (rev a) = true).
  { intros a H. apply forallb_forall. intros x Hx. apply in_rev in Hx. rewrite forallb_forall in H. exact (H x Hx). }
  revert acc l. induction s as [|c s IH]; intros acc l Ha H; cbn [split_by_go] in H.
  - destruct acc; [destruct H|]. destruct H as [<-|[]]. apply Hrev. exact Ha.
  - destruct (p c) eqn:Ep.
    + destruct acc as [|a acc]; [exact (IH [] l eq_refl H)|]. destruct H as [<-|H]; [apply Hrev; exact Ha|exact (IH [] l eq_refl H)].
    + apply (IH (c :: acc) l); [cbn [forallb]; rewrite Ep, Ha; reflexivity|exact H].
Qed.
Lemma sanitize_tokens_ok py r tag attr ar px l out : sanitize_tokens py r tag attr HAllow ar px l = Some (Some out) ->
  Forall2 (fun tok url => sanitize_url_value py r tok tag attr HAllow ar px None = Keep url) l out.
Proof.
  revert out. induction l as [|t l IH]; intros out H; cbn [sanitize_tokens] in H; [injection H as <-; constructor|].
  destruct (sanitize_url_value py r t tag attr HAllow ar px None) as [|s|] eqn:E; try discriminate.
  destruct (sanitize_tokens py r tag attr HAllow ar px l) as [[l'|]|]; try discriminate. injection H as <-. constructor; [exact E|apply IH; reflexivity].
Qed.
(* an accepted URL has no whitespace if its token has none *)
Definition spaceless (s : str) : Prop := s <> [] /\ forall c, In c s -> html_ws c = false.
Lemma space_urls_join' l : Forall spaceless l -> space_urls (join [32] l) = l.
Proof.
  assert (G : forall w, spaceless w -> forallb (fun c => negb (html_ws c)) w = true).
  { intros w [_ H]. apply forallb_forall. intros c Hc. rewrite (H c Hc). reflexivity. }
  unfold space_urls. induction l as [|w l IH]; intros H; [reflexivity|]. apply Forall_inv in H as Hw. apply Forall_inv_tail in H. specialize (IH H).
  assert (Hr : rev w <> []) by (intros E; destruct Hw as [Hw _]; apply Hw; rewrite <- (rev_involutive w), E; reflexivity).
  destruct l as [|w2 l].
  - cbn [join]. rewrite <- (app_nil_r w) at 1. rewrite split_by_word by (apply G; exact Hw). rewrite app_nil_r. cbn [split_by_go]. destruct (rev w) eqn:E; [congruence|]. rewrite <- E, rev_involutive. reflexivity.
  - change (join [32] (w :: w2 :: l)) with (w ++ 32 :: join [32] (w2 :: l))%list. rewrite split_by_word by (apply G; exact Hw). rewrite app_nil_r.
    cbn [split_by_go]. change (html_ws 32) with true. cbv iota. destruct (rev w) eqn:E; [congruence|]. rewrite <- E, rev_involutive. f_equal. exact IH.
Qed.
Lemma kept_spaceless py rule ar st out : schemes_valid rule -> st <> [] -> (forall c, In c st -> is_space c = false) -> kept py rule ar st out -> spaceless out.
Proof.
  intros Hv Hne Hp Hk. assert (Hw : forall c, is_space c = false -> html_ws c = false) by (intros c Hc; destruct (html_ws c) eqn:E; [apply html_ws_space in E; congruence|reflexivity]).
  destruct Hk as [Hf _|r Hss _ _ Hin _|sch Hg Hin _ _ _ _|sch Hg Hin _ _|Hg _ _ _]; try (split; auto; fail).
  destruct (valid_scheme_facts _ (Hv _ Hin)) as ((c & t & Ec & _) & Hf & _). split; [rewrite Ec; discriminate|].
  intros x Hx. apply Hw. apply in_app_iff in Hx. destruct Hx as [Hx|[<-|Hx]].
  - apply scheme_char_plain. rewrite forallb_forall in Hf. exact (Hf x Hx).
  - reflexivity.
  - apply Hp. exact (normalize_incl st x Hx).
Qed.
Lemma accepted_spaceless py rule tok tag attr ar px url : schemes_valid rule -> (forall c, In c tok -> is_space c = false) ->
  sanitize_url_value py rule tok tag attr HAllow ar px None = Keep url -> spaceless url.
Proof.
  intros Hv Hp H. unfold sanitize_url_value in H. apply sanitize_kept in H. destruct H as (_ & Hn & _ & Hk).
  refine (kept_spaceless _ _ _ _ _ Hv _ _ Hk).
  - intros E. rewrite E in Hn. apply Hn. reflexivity.
  - intros c Hc. apply Hp. apply strip_invisible_incl. exact (strip_incl _ _ c Hc).
Qed.
Lemma Forall2_right {A B} (R : A -> B -> Prop) (P : A -> Prop) (Q : B -> Prop) l l' : (forall a b, P a -> R a b -> Q b) -> Forall P l -> Forall2 R l l' -> Forall Q l'.
Proof. intros H HP HR. induction HR as [|a b l l' Hab HR IH]; constructor; [exact (H a b (Forall_inv HP) Hab)|exact (IH (Forall_inv_tail HP))]. Qed.

Lemma c18_list py p r tag attr value split out : schemes_valid r -> effective_handling p r = HAllow ->
  (forall s l, In l (split s) -> forall c, In c l -> is_space c = false) ->
  sanitize_token_list py p r tag attr value split = Keep out ->
  exists v, list_filter p tag attr value = Some v /\
    Forall2 (fun tok url => sanitize_url_value py r tok tag attr HAllow (effective_allow_relative p r) (effective_proxy p r) None = Keep url)
      (split (strip v)) (space_urls out).
Proof.
  intros Hv Hh Hsp H. unfold sanitize_token_list in H. rewrite Hh in H. destruct (list_filter p tag attr value) as [v|]; [|discriminate]. exists v. split; [reflexivity|].
  destruct (strip v) as [|c0 s] eqn:Es; [discriminate|]. rewrite <- Es in *.
  destruct (sanitize_tokens py r tag attr HAllow _ _ (split (strip v))) as [[l|]|] eqn:El; try discriminate.
  assert (Hout : out = join [32] l) by (destruct l; [discriminate|congruence]). subst out. apply sanitize_tokens_ok in El.
  rewrite space_urls_join'; [exact El|]. revert El. apply (Forall2_right _ (fun tok => forall c, In c tok -> is_space c = false)).
  - intros tok url Htok Hu. exact (accepted_spaceless _ _ _ _ _ _ _ _ Hv Htok Hu).
  - apply Forall_forall. intros tok Htok. exact (Hsp _ _ Htok).
Qed.
Lemma split_ws_no s l : In l (split_ws s) -> forall c, In c l -> is_space c = false.
Proof. intros H c Hc. unfold split_ws in H. apply split_by_go_no in H; [|reflexivity]. rewrite forallb_forall in H. specialize (H c Hc). apply negb_true_iff in H. exact H. Qed.
Lemma split_comma_no s l : In l (split_by_go (fun c => is_space c || (c =? 44)) [] s) -> forall c, In c l -> is_space c = false.
Proof. intros H c Hc. apply split_by_go_no in H; [|reflexivity]. rewrite forallb_forall in H. specialize (H c Hc). apply negb_true_iff, orb_false_iff in H. tauto. Qed.

(* ---------- C19: meta refresh ---------- *)
Lemma kept_tidy py rule ar st out : schemes_valid rule -> tidy st -> normalize_url st <> [] -> kept py rule ar st out -> tidy out /\ out <> [].
Proof.
  intros Hv Ht Hn Hk. assert (Hst : st <> []) by (intros ->; apply Hn; reflexivity).
  destruct Hk as [Hf _|r Hss _ _ Hin _|sch Hg Hin _ _ _ _|sch Hg Hin _ _|Hg _ _ _]; auto.
  split; [apply network_tidy; auto|]. destruct (lower r); discriminate.
Qed.
Lemma sanitize_tidy py rule value tag attr ar px f out : schemes_valid rule -> sanitize_url_value py rule value tag attr HAllow ar px f = Keep out -> tidy out /\ out <> [].
Proof.
  intros Hv H. apply sanitize_inv in H; [|discriminate]. destruct H as (v & _ & H). apply sanitize_kept in H. destruct H as (H1 & H2 & _ & H4). exact (kept_tidy _ _ _ _ _ Hv H1 H2 H4).
Qed.
Definition time_char (c : N) : bool := is_digit_ascii c || (c =? 46).
Definition quote_first (s : str) : Prop := exists t, s = 34 :: t \/ s = 39 :: t.
Lemma tidy_drop_ws s : tidy s -> drop_while html_ws s = s.
Proof.
  intros (H1 & H2 & _). apply drop_while_id. intros c t E. rewrite control_false in H1. specialize (H2 c t E). assert (Hc : In c s) by (rewrite E; left; reflexivity). specialize (H1 c Hc). unfold html_ws. lia.
Qed.
Lemma refresh_prefix t s : t <> [] -> forallb time_char t = true -> tidy s -> s <> [] -> ~ quote_first s -> refresh_url (t ++ u ";url=" ++ s)%list = Some s.
Proof.
  intros Hne Ht Hs Hsne Hq. unfold refresh_url. cbv zeta.
  assert (E0 : drop_while html_ws (t ++ u ";url=" ++ s)%list = (t ++ u ";url=" ++ s)%list).
  { apply drop_while_id. intros c t' E. destruct t as [|x t]; [congruence|]. cbn [app] in E. injection E as <- _. cbn [forallb] in Ht. apply andb_prop in Ht. destruct Ht as [Hx _]. unfold time_char, is_digit_ascii in Hx. unfold html_ws. lia. }
  rewrite E0.
  assert (E1 : drop_while (fun c => is_digit_ascii c || (c =? 46)) (drop_while is_digit_ascii (t ++ u ";url=" ++ s)%list) = (u ";url=" ++ s)%list).
  { clear E0. revert Ht. clear. induction t as [|x t IH]; intros H; [reflexivity|]. cbn [forallb] in H. apply andb_prop in H. destruct H as [Hx Ht]. cbn [app drop_while].
    destruct (is_digit_ascii x) eqn:Ed; [exact (IH Ht)|]. cbn [drop_while]. rewrite Ed. unfold time_char in Hx. rewrite Ed in Hx. cbn [orb] in *. rewrite Hx.
    clear IH Hx Ed. induction t as [|y t IH]; [reflexivity|]. cbn [forallb] in Ht. apply andb_prop in Ht. destruct Ht as [Hy Ht]. cbn [app drop_while]. unfold time_char in Hy. rewrite Hy. exact (IH Ht). }
  assert (E2 : match take_while is_digit_ascii (t ++ u ";url=" ++ s)%list with [] => match drop_while is_digit_ascii (t ++ u ";url=" ++ s)%list with c :: _ => negb (c =? 46) | [] => true end | _ => false end = false).
  { destruct t as [|x t]; [congruence|]. cbn [forallb] in Ht. apply andb_prop in Ht. destruct Ht as [Hx _]. cbn [app take_while drop_while]. destruct (is_digit_ascii x) eqn:Ed; [reflexivity|].
    unfold time_char in Hx. rewrite Ed in Hx. cbn [orb] in Hx. rewrite Hx. reflexivity. }
  rewrite E2, E1.
  change (match drop_while html_ws (u "url=" ++ s)%list with [] => None | s5 => Some (refresh_url_part s5) end = Some s).
  change (Some (refresh_quotes (drop_while html_ws s)) = Some s). rewrite tidy_drop_ws by exact Hs. f_equal. unfold refresh_quotes. destruct s as [|q s']; [reflexivity|].
  destruct (N.eqb_spec q 34) as [->|H34]; [exfalso; apply Hq; exists s'; left; reflexivity|]. destruct (N.eqb_spec q 39) as [->|H39]; [exfalso; apply Hq; exists s'; right; reflexivity|]. reflexivity.
Qed.
Lemma c19 py p r tag attr value out : schemes_valid r -> effective_handling p r = HAllow ->
  strip (part_before 59 value) <> [] -> forallb time_char (strip (part_before 59 value)) = true ->
  sanitize_meta_refresh py p r tag attr value = Keep out ->
  exists candidate url, sanitize_simple_sink py p r tag attr candidate = Keep url /\ (quote_first url \/ refresh_url out = Some url).
Proof.
  intros Hv Hh Hne Ht H. unfold sanitize_meta_refresh in H. destruct (extract_meta_refresh_url value) as [[prefix cand]|] eqn:E; [|discriminate].
  destruct (sanitize_simple_sink py p r tag attr cand) as [|url|] eqn:Es; try discriminate.
  assert (Ho : out = (strip prefix ++ u ";url=" ++ url)%list) by congruence. subst out. clear H.
  assert (Ep : prefix = strip (part_before 59 value)).
  { unfold extract_meta_refresh_url in E. destruct (negb (mem 59 value)); [discriminate|]. cbv zeta in E. destruct (negb (str_eqb _ _) || _); [discriminate|].
    destruct (strip (part_after 61 (part_after 59 value))) as [|q t]; [discriminate|]. destruct (if (q =? 39) || (q =? 34) then _ else _) as [|a b]; [discriminate|]. destruct (mem 44 _ || _); [discriminate|]. congruence. }
  exists cand, url. split; [exact Es|]. unfold sanitize_simple_sink in Es. rewrite Hh in Es. destruct (sanitize_tidy _ _ _ _ _ _ _ _ _ Hv Es) as [Htd Hun].
  assert (Hq : quote_first url \/ ~ quote_first url).
  { destruct url as [|q t]; [congruence|]. destruct (N.eqb_spec q 34) as [->|]; [left; exists t; auto|]. destruct (N.eqb_spec q 39) as [->|]; [left; exists t; auto|]. right. intros (t' & [E'|E']); injection E' as -> _; congruence. }
  destruct Hq as [Hq|Hq]; [left; exact Hq|right]. subst prefix. unfold strip at 1. rewrite strip_idem. apply refresh_prefix; assumption.
Qed.

(* ---------- C20 ---------- *)
Lemma printable_control s : is_ascii s = true -> printable_ascii s = negb (existsb control_char s).
Proof.
  unfold is_ascii, printable_ascii. induction s as [|c s IH]; intros H; [reflexivity|]. cbn [forallb existsb] in *. apply andb_prop in H. destruct H as [Hc Hs]. rewrite (IH Hs), negb_orb. f_equal.
  unfold is_ascii_char, control_char in *. lia.
Qed.
Lemma strip_ascii s : is_ascii s = true -> is_ascii (strip s) = true.
Proof. unfold is_ascii. intros H. apply forallb_forall. intros c Hc. rewrite forallb_forall in H. apply H. exact (strip_incl _ _ c Hc). Qed.
Lemma mem_incl c a b : incl a b -> mem c b = false -> mem c a = false.
Proof. intros Hi H. apply mem_false_In. apply mem_false_In in H. intros Ha. apply H. apply Hi. exact Ha. Qed.
Lemma no_space_normal s : existsb control_char s = false -> mem 32 s = false -> normalize_url s = s.
Proof.
  intros Hc Hs. apply normalize_id. intros c Hi. rewrite control_false in Hc. specialize (Hc c Hi). apply mem_false_In in Hs. assert (c <> 32) by (intros ->; contradiction). unfold ws_or_control. lia.
Qed.
Lemma normalize_nil s : tidy s -> s <> [] -> normalize_url s <> [].
Proof. intros Ht Hne. destruct s as [|c t]; [congruence|]. rewrite (tidy_head _ c t Ht eq_refl). discriminate. Qed.
Lemma starts_hash s : tidy s -> starts [35] (normalize_url s) = starts [35] s.
Proof. intros Ht. destruct s as [|c t]; [reflexivity|]. rewrite (tidy_head _ c t Ht eq_refl). reflexivity. Qed.
Lemma get_scheme_none s : ~ In 58 s -> get_scheme s = None.
Proof. intros H. unfold get_scheme, scheme_like_prefix. replace (find_char 58 s) with (@None nat); [reflexivity|]. symmetry. apply find_char_None. exact H. Qed.
Lemma get_scheme_https t : get_scheme (u "https://" ++ t)%list = Some (u "https").
Proof. change (u "https://" ++ t)%list with (u "https" ++ 58 :: (47 :: 47 :: t))%list. apply get_scheme_app; [exists 104, (u "ttps"); split; reflexivity|reflexivity]. Qed.
Lemma get_scheme_http t : get_scheme (u "http://" ++ t)%list = Some (u "http").
Proof. change (u "http://" ++ t)%list with (u "http" ++ 58 :: (47 :: 47 :: t))%list. apply get_scheme_app; [exists 104, (u "ttp"); split; reflexivity|reflexivity]. Qed.

Lemma strip_invisible_ascii v : is_ascii v = true -> strip_invisible v = v.
Proof. unfold strip_invisible. intros ->. reflexivity. Qed.

Lemma prepared_https py rule ar px st sch t : (sch = u "http" \/ sch = u "https") -> st = (sch ++ u "://" ++ t)%list ->
  tidy st -> mem 32 st = false -> mem 92 st = false -> allowed_hosts rule = None ->
  (let normalized := normalize_url st in
   match normalized with
  | [] => Drop
  | _ =>
    if mem 92 normalized then Drop
    else if starts [35] normalized then
      if negb (allow_fragment rule) then Drop else finish HAllow px st st
    else if starts (u "//") normalized then
      match resolve_protocol_relative rule with
      | None => Drop
      | Some [] => Drop
      | Some r =>
        let resolved_scheme := lower r in
        let resolved_url := (resolved_scheme ++ 58 :: normalized)%list in
        let raw_resolved_url := (resolved_scheme ++ 58 :: st)%list in
        if negb (in_strs resolved_scheme (allowed_schemes rule)) then Drop
        else if match allowed_hosts rule with Some hosts => negb (url_host_matches py raw_resolved_url hosts) | None => false end then Drop
        else finish HAllow px resolved_url resolved_url
      end
    else match get_scheme normalized with
         | Some scheme =>
           if negb (in_strs scheme (allowed_schemes rule)) then Drop
           else if (str_eqb scheme (u "http") || str_eqb scheme (u "https")) && negb (starts (scheme ++ u "://")%list normalized) then
             match allowed_hosts rule with
             | Some _ => Drop
             | None => if negb ar then Drop else finish HAllow px st st
             end
           else if match allowed_hosts rule with Some hosts => negb (url_host_matches py st hosts) | None => false end then Drop
           else finish HAllow px st st
         | None => if negb ar then Drop else finish HAllow px st st
         end
  end) = if in_strs sch (allowed_schemes rule) then Keep st else Drop.
Proof.
  intros Hs E Ht H32 H92 Hh. cbv zeta. rewrite no_space_normal by (try exact H32; apply Ht). rewrite match_nonempty by (rewrite E; destruct Hs as [->| ->]; discriminate).
  rewrite H92, Hh.
  assert (G : get_scheme st = Some sch) by (rewrite E; destruct Hs as [->| ->]; [apply get_scheme_http|apply get_scheme_https]). rewrite G.
  replace (starts [35] st) with false by (rewrite E; destruct Hs as [->| ->]; reflexivity). replace (starts (u "//") st) with false by (rewrite E; destruct Hs as [->| ->]; reflexivity).
  replace (starts (sch ++ u "://")%list st) with true by (symmetry; rewrite E, app_assoc; apply starts_app). rewrite andb_false_r. destruct (in_strs sch (allowed_schemes rule)); reflexivity.
Qed.

Lemma c20 py rule value tag attr ar px o : allowed_hosts rule = None -> ~ In 92 value ->
  (starts (u "//") (normalize_url (strip value)) = true -> ~ In 32 (strip value)) ->
  url_fast value rule ar = Some o -> sanitize_url_value py rule value tag attr HAllow ar px None = o.
Proof.
  intros Hh H92 Hsp H. unfold url_fast in H. destruct (is_ascii value) eqn:Ea; [|discriminate]. cbn [negb] in H. cbv zeta in H.
  unfold sanitize_url_value. rewrite (strip_invisible_ascii _ Ea). unfold sanitize_prepared. cbv zeta. pose proof (strip_ascii _ Ea) as Eas.
  apply mem_false_In in H92. pose proof (mem_incl _ _ _ (strip_incl is_space value) H92) as H92s. fold (strip value) in H92s. clear H92.
  pose proof (strip_tidy value) as Htd.
  assert (Hcase : strip value = [] \/ strip value <> []) by (destruct (strip value); [left; reflexivity|right; discriminate]).
  destruct Hcase as [E|Hne]; [rewrite E in *; cbn in *; congruence|]. rewrite match_nonempty in H by exact Hne.
  rewrite (printable_control _ Eas) in H. set (st := strip value) in *.
  destruct (existsb control_char st) eqn:Ec.
  { cbn [negb] in H. rewrite !andb_false_r in H. congruence. }
  specialize (Htd eq_refl). cbn [negb] in H. rewrite !andb_true_r in H.
  assert (H92n : mem 92 (normalize_url st) = false) by (apply (mem_incl _ _ _ (normalize_incl st)); exact H92s).
  destruct (starts (u "https://") st && negb (mem 32 st)) eqn:E1.
  { apply andb_prop in E1. destruct E1 as [E1 E32]. apply negb_true_iff in E32. apply starts_spec in E1. destruct E1 as (t & Et).
    pose proof (prepared_https py rule ar px st (u "https") t (or_intror eq_refl) Et Htd E32 H92s Hh) as G. cbv zeta in G. rewrite G. congruence. }
  destruct (starts (u "http://") st && negb (mem 32 st)) eqn:E2.
  { apply andb_prop in E2. destruct E2 as [E2 E32]. apply negb_true_iff in E32. apply starts_spec in E2. destruct E2 as (t & Et).
    pose proof (prepared_https py rule ar px st (u "http") t (or_introl eq_refl) Et Htd E32 H92s Hh) as G. cbv zeta in G. rewrite G. congruence. }
  pose proof (normalize_nil st Htd Hne) as Hnn. rewrite match_nonempty by exact Hnn. rewrite H92n.
  destruct (mem 58 st) eqn:E58; cbn [negb] in H.
  - replace (match normalize_url st with [] => true | _ => false end) with false in H by (destruct (normalize_url st); [congruence|reflexivity]). rewrite H92n in H. cbn [orb] in H.
    destruct (starts [35] (normalize_url st)); [destruct (allow_fragment rule); cbn in *; congruence|].
    destruct (starts (u "//") (normalize_url st)).
    + destruct (resolve_protocol_relative rule) as [[|c r]|]; try congruence. rewrite Hh. destruct (in_strs (lower (c :: r)) (allowed_schemes rule)); cbn [negb] in *; cbn [finish]; congruence.
    + destruct (get_scheme (normalize_url st)) as [sch|].
      * destruct (in_strs sch (allowed_schemes rule)); cbn [negb] in *; [|congruence]. rewrite Hh. destruct ((str_eqb sch (u "http") || str_eqb sch (u "https")) && negb (starts (sch ++ u "://")%list (normalize_url st))); cbn [andb] in H.
        -- destruct ar; cbn [negb] in *; cbn [finish]; congruence.
        -- cbn [finish]. congruence.
      * destruct ar; cbn [negb] in *; cbn [finish]; congruence.
  - rewrite H92s in H. rewrite starts_hash by exact Htd. destruct (starts [35] st); [destruct (allow_fragment rule); cbn in *; congruence|].
    assert (Hgs : get_scheme (normalize_url st) = None) by (apply get_scheme_none; apply mem_false_In; apply (mem_incl _ _ _ (normalize_incl st)); exact E58). rewrite Hgs.
    destruct (starts (u "//") (normalize_url st)) eqn:Ess.
    + specialize (Hsp eq_refl). apply mem_false_In in Hsp. pose proof (no_space_normal st Ec Hsp) as En. rewrite En in *. rewrite Ess in H.
      destruct (resolve_protocol_relative rule) as [[|c r]|]; try congruence. rewrite Hh. destruct (in_strs (lower (c :: r)) (allowed_schemes rule)); cbn [negb] in *; cbn [finish]; congruence.
    + destruct (starts (u "//") st) eqn:Ess2.
      * exfalso. apply starts_spec in Ess2. destruct Ess2 as (t & Et). rewrite Et in Ess. rewrite normalize_app in Ess. discriminate Ess.
      * destruct ar; cbn [negb] in *; cbn [finish]; congruence.
Qed.

(* what holds of the fast path without side conditions *)
Lemma scheme_start_browser raw rest : (exists c t, raw = c :: t /\ is_alpha_ascii c = true) -> forallb scheme_char raw = true -> tidy (raw ++ 58 :: rest)%list ->
  browser_scheme (raw ++ 58 :: rest)%list = Some (alow raw).
Proof.
  intros (c & t & Er & Ha) Hf Ht. unfold browser_scheme. rewrite (tidy_input _ Ht). unfold scheme_start. rewrite Er at 1. cbn [app]. rewrite Ha. rewrite scheme_state_app by exact Hf. reflexivity.
Qed.
Lemma tidy_app_scheme s t : valid_scheme s -> tidy (47 :: t) -> tidy (s ++ 58 :: 47 :: t)%list.
Proof.
  intros Hs (T1 & T2 & T3). destruct (valid_scheme_facts s Hs) as ((c & t' & -> & Ha) & Hf & _). rewrite control_false in T1. split; [|split].
  - apply control_false. intros x Hx. apply in_app_iff in Hx. destruct Hx as [Hx|[<-|Hx]].
    + rewrite forallb_forall in Hf. specialize (Hf x Hx). apply scheme_char_range in Hf. lia.
    + lia.
    + exact (T1 x Hx).
  - intros d t2 E. cbn [app] in E. injection E as <- _. unfold is_alpha_ascii, is_upper_ascii, is_lower_ascii in Ha. lia.
  - intros d t2 E. assert (Hn : 47 :: t <> []) by discriminate. destruct (exists_last Hn) as (n' & x & En). rewrite En in E.
    replace ((c :: t') ++ 58 :: n' ++ [x])%list with (((c :: t') ++ 58 :: n') ++ [x])%list in E by (rewrite <- app_assoc; reflexivity).
    apply app_inj_tail in E. destruct E as [_ <-]. exact (T3 x n' En).
Qed.
Lemma fast_safe rule value ar out : schemes_valid rule -> url_fast value rule ar = Some (Keep out) ->
  (forall s, browser_scheme out = Some s -> In s (allowed_schemes rule)) /\ ~ protocol_relative out.
Proof.
  intros Hv H. unfold url_fast in H. destruct (is_ascii value) eqn:Ea; [|discriminate]. cbn [negb] in H. cbv zeta in H.
  pose proof (strip_ascii _ Ea) as Eas. pose proof (strip_tidy value) as Htd.
  assert (Hcase : strip value = [] \/ strip value <> []) by (destruct (strip value); [left; reflexivity|right; discriminate]).
  destruct Hcase as [E|Hne]; [rewrite E in H; discriminate H|]. rewrite match_nonempty in H by exact Hne.
  rewrite (printable_control _ Eas) in H. set (st := strip value) in *.
  destruct (existsb control_char st) eqn:Ec.
  { cbn [negb] in H. rewrite !andb_false_r in H. discriminate H. }
  specialize (Htd eq_refl). cbn [negb] in H. rewrite !andb_true_r in H.
  assert (Habs : forall raw rest, (exists c t, raw = c :: t /\ is_alpha_ascii c = true) -> forallb scheme_char raw = true -> tidy (raw ++ 58 :: rest)%list -> In (alow raw) (allowed_schemes rule) ->
    (forall s, browser_scheme (raw ++ 58 :: rest)%list = Some s -> In s (allowed_schemes rule)) /\ ~ protocol_relative (raw ++ 58 :: rest)%list).
  { intros raw rest H1 H2 H3 H4. pose proof (scheme_start_browser raw rest H1 H2 H3) as Hb. split; [intros s Hs; congruence|intros (Hn & _); congruence]. }
  destruct (starts (u "https://") st && negb (mem 32 st)) eqn:E1.
  { apply andb_prop in E1. destruct E1 as [E1 _]. apply starts_spec in E1. destruct E1 as (t & Et).
    destruct (in_strs (u "https") (allowed_schemes rule)) eqn:Ei; [|discriminate H]. apply in_strs_In in Ei. assert (out = st) by congruence. subst out. clear H.
    change (u "https://" ++ t)%list with (u "https" ++ 58 :: (47 :: 47 :: t))%list in Et. rewrite Et in *. apply Habs; [exists 104, (u "ttps"); split; reflexivity|reflexivity|exact Htd|exact Ei]. }
  destruct (starts (u "http://") st && negb (mem 32 st)) eqn:E2.
  { apply andb_prop in E2. destruct E2 as [E2 _]. apply starts_spec in E2. destruct E2 as (t & Et).
    destruct (in_strs (u "http") (allowed_schemes rule)) eqn:Ei; [|discriminate H]. apply in_strs_In in Ei. assert (out = st) by congruence. subst out. clear H.
    change (u "http://" ++ t)%list with (u "http" ++ 58 :: (47 :: 47 :: t))%list in Et. rewrite Et in *. apply Habs; [exists 104, (u "ttp"); split; reflexivity|reflexivity|exact Htd|exact Ei]. }
  pose proof (normalize_nil st Htd Hne) as Hnn.
  destruct (mem 58 st) eqn:E58; cbn [negb] in H.
  - replace (match normalize_url st with [] => true | _ => false end) with false in H by (destruct (normalize_url st); [congruence|reflexivity]). cbn [orb] in H.
    destruct (mem 92 (normalize_url st)) eqn:H92n; [discriminate H|]. apply mem_false_In in H92n.
    pose (py := Urllib (fun _ => true) (fun _ => true)). pose (rule' := UrlRule (allow_fragment rule) (resolve_protocol_relative rule) (allowed_schemes rule) None None None None).
    assert (K : kept py rule' ar st out).
    { destruct (starts [35] (normalize_url st)) eqn:Ehash.
      - destruct (allow_fragment rule) eqn:Ef; [|discriminate H]. assert (out = st) by congruence. subst out. apply k_fragment; auto.
      - destruct (starts (u "//") (normalize_url st)) eqn:Ess.
        + destruct (resolve_protocol_relative rule) as [[|c r]|] eqn:Er; try discriminate H. destruct (in_strs (lower (c :: r)) (allowed_schemes rule)) eqn:Ei; [|discriminate H]. apply in_strs_In in Ei. cbn [negb] in H.
          assert (out = (lower (c :: r) ++ 58 :: normalize_url st)%list) by congruence. subst out. apply k_network; auto; [discriminate|]. intros hosts Hx. discriminate Hx.
        + destruct (get_scheme (normalize_url st)) as [sch|] eqn:Eg.
          * destruct (in_strs sch (allowed_schemes rule)) eqn:Ei; [|discriminate H]. apply in_strs_In in Ei. cbn [negb] in H.
            destruct (str_eqb sch (u "http") || str_eqb sch (u "https")) eqn:Eh; cbn [andb] in H.
            -- destruct (starts (sch ++ u "://")%list (normalize_url st)) eqn:Est; cbn [andb negb] in H.
               ++ assert (out = st) by congruence. subst out. apply (k_absolute py rule' ar st sch); auto. intros hosts Hx. discriminate Hx.
               ++ destruct ar; [|discriminate H]. cbn [negb] in H. assert (out = st) by congruence. subst out. apply (k_relative_http py rule' true st sch); auto.
                  apply orb_prop in Eh. destruct Eh as [Eh|Eh]; apply str_eqb_eq in Eh; auto.
            -- assert (out = st) by congruence. subst out. apply (k_absolute py rule' ar st sch); auto; [|intros hosts Hx; discriminate Hx].
               intros Hx. exfalso. apply orb_false_iff in Eh. destruct Eh as [Eh1 Eh2]. apply str_eqb_neq in Eh1, Eh2. tauto.
          * destruct ar; [|discriminate H]. assert (out = st) by congruence. subst out. apply k_relative; auto. }
    split; [intros s Hs; exact (kept_scheme py rule' ar st out s Hv Htd Hnn K Hs)|exact (kept_not_network py rule' ar st out Hv Htd Hnn H92n K)].
  - destruct (mem 92 st) eqn:H92s; [discriminate H|]. apply mem_false_In in H92s.
    assert (Hrel : starts (u "//") st = false -> (forall s, browser_scheme st = Some s -> In s (allowed_schemes rule)) /\ ~ protocol_relative st).
    { intros Hss. split.
      - intros s Hb. exfalso. apply (browser_get_scheme _ _ Htd) in Hb. rewrite get_scheme_none in Hb; [discriminate Hb|]. apply mem_false_In. apply (mem_incl _ _ _ (normalize_incl st)). exact E58.
      - intros (_ & a & b & t & Et & Ha & Hb). rewrite (tidy_input _ Htd) in Et. rewrite Et in Hss, H92s.
        assert (a <> 92) by (intros ->; apply H92s; left; reflexivity). assert (b <> 92) by (intros ->; apply H92s; right; left; reflexivity).
        assert (a = 47) by (unfold slash in Ha; lia). assert (b = 47) by (unfold slash in Hb; lia). subst a b. discriminate Hss. }
    destruct (starts [35] st) eqn:Ehash.
    + destruct (allow_fragment rule); [|discriminate H]. assert (out = st) by congruence. subst out. apply Hrel. apply starts1 in Ehash. destruct Ehash as (t & ->). reflexivity.
    + destruct (starts (u "//") st) eqn:Ess.
      * destruct (resolve_protocol_relative rule) as [[|c r]|]; try discriminate H. destruct (in_strs (lower (c :: r)) (allowed_schemes rule)) eqn:Ei; [|discriminate H]. apply in_strs_In in Ei. cbn [negb] in H.
        assert (Ho : out = (lower (c :: r) ++ 58 :: st)%list) by congruence. rewrite Ho. clear H Ho. destruct (valid_scheme_facts _ (Hv _ Ei)) as (V1 & V2 & V3). apply starts_spec in Ess. destruct Ess as (t & Et).
        change (u "//" ++ t)%list with (47 :: (47 :: t)) in Et. rewrite Et in Htd |- *. apply Habs; auto; [apply tidy_app_scheme; [exact (Hv _ Ei)|exact Htd]|rewrite V3; exact Ei].
      * destruct ar; [|discriminate H]. assert (out = st) by congruence. subst out. apply Hrel. reflexivity.
Qed.

(* ---------- C13 ---------- *)
Lemma default_a_valid : schemes_valid default_a_href.
Proof.
  intros s Hs. cbn in Hs. destruct Hs as [<-|[<-|[<-|[<-|[]]]]]; unfold valid_scheme; [exists 104, (u "ttp")|exists 104, (u "ttps")|exists 109, (u "ailto")|exists 116, (u "el")]; repeat split.
Qed.
Lemma default_img_valid : schemes_valid default_img_src.
Proof. intros s []. Qed.

Lemma parse_time_safe py p r tag attr value out : schemes_valid r -> effective_handling p r = HAllow ->
  (parse_time_url py p r tag attr value = Keep out \/ sanitize_sink py p r tag attr KUrl value = Keep out) ->
  (forall s, browser_scheme out = Some s -> In s (allowed_schemes r)) /\ ~ protocol_relative out.
Proof.
  intros Hv Hh H.
  assert (G : sanitize_sink py p r tag attr KUrl value = Keep out -> (forall s, browser_scheme out = Some s -> In s (allowed_schemes r)) /\ ~ protocol_relative out).
  { cbn [sanitize_sink]. unfold sanitize_simple_sink. rewrite Hh. intros Hs. split; [intros s Hb; exact (c12 _ _ _ _ _ _ _ _ _ _ Hv Hs Hb)|exact (c14 _ _ _ _ _ _ _ _ _ Hv Hs)]. }
  destruct H as [H|H]; [|exact (G H)]. unfold parse_time_url in H. destruct (fast_eligible p r); [|exact (G H)]. destruct (url_fast value r _) as [o|] eqn:E; [|exact (G H)]. subst o. exact (fast_safe _ _ _ _ Hv E).
Qed.

(* ---------- clean_url_value ---------- *)
Lemma quote_safe_facts c : quote_safe c = true -> 32 < c /\ c < 127 /\ c <> 92.
Proof.
  intros H. destruct (quote_safe_small c H) as [_ Hc].
  pose proof (ascii_check (fun c => implb (quote_safe c) ((32 <? c) && (c <? 127) && negb (c =? 92))) ltac:(vm_compute; reflexivity) c Hc) as G. cbv beta in G. rewrite H in G. cbn in G. lia.
Qed.
Lemma hex_upper_range d : d < 16 -> 48 <= hex_upper d /\ hex_upper d <= 70.
Proof. unfold hex_upper. intros H. destruct (d <? 10) eqn:E; lia. Qed.
Lemma quoted_chars bs : Forall (fun b => b < 256) bs -> forall c, In c (flat_map quote_byte bs) -> 32 < c /\ c < 127 /\ c <> 92.
Proof.
  intros H c Hc. apply in_flat_map in Hc. destruct Hc as (b & Hb & Hc). rewrite Forall_forall in H. specialize (H b Hb). cbv beta in H. unfold quote_byte in Hc.
  destruct (quote_safe b) eqn:E; [destruct Hc as [<-|[]]; exact (quote_safe_facts _ E)|].
  assert (b / 16 < 16) by (apply N.div_lt_upper_bound; lia). assert (b mod 16 < 16) by (apply N.mod_lt; lia).
  destruct Hc as [<-|[<-|[<-|[]]]]; [lia| |]; [pose proof (hex_upper_range (b / 16))|pose proof (hex_upper_range (b mod 16))]; lia.
Qed.
Lemma quoted_input bs : Forall (fun b => b < 256) bs -> url_input (flat_map quote_byte bs) = flat_map quote_byte bs.
Proof.
  intros H. pose proof (quoted_chars bs H) as G. apply tidy_input. split; [|split].
  - apply control_false. intros c Hc. specialize (G c Hc). lia.
  - intros c t E. assert (Hc : In c (flat_map quote_byte bs)) by (rewrite E; left; reflexivity). specialize (G c Hc). lia.
  - intros c t E. assert (Hc : In c (flat_map quote_byte bs)) by (rewrite E; apply in_or_app; right; left; reflexivity). specialize (G c Hc). lia.
Qed.
Lemma scheme_char_safe c : scheme_char c = true -> quote_safe c = true.
Proof. intros H. assert (Hc : c < 128) by (apply scheme_char_range in H; lia). pose proof (ascii_check (fun c => implb (scheme_char c) (quote_safe c)) ltac:(vm_compute; reflexivity) c Hc) as G. cbv beta in G. rewrite H in G. exact G. Qed.
Lemma quoted_scheme_state bs sch rest : scheme_state (flat_map quote_byte bs) = Some (sch, rest) -> exists rest', scheme_state bs = Some (sch, rest').
Proof.
  revert sch rest. induction bs as [|b bs IH]; intros sch rest H; [discriminate H|]. cbn [flat_map] in H. unfold quote_byte at 1 in H. destruct (quote_safe b) eqn:E.
  - cbn [app scheme_state] in *. destruct (b =? 58) eqn:E58; [injection H as <- _; eauto|]. destruct (scheme_char b); [|discriminate H].
    destruct (scheme_state (flat_map quote_byte bs)) as [[s r]|]; [|discriminate H]. injection H as <- <-. destruct (IH s r eq_refl) as (r' & ->). eauto.
  - discriminate H.
Qed.
Lemma utf8_ascii_head c a x t : utf8_encode1 c = Some a -> a = x :: t -> x < 128 -> c = x /\ t = [].
Proof.
  unfold utf8_encode1. intros H -> Hx. destruct (c <? 128) eqn:E1; [split; congruence|]. exfalso.
  assert (G : 128 <= x); [|lia]. destruct (c <? 2048) eqn:E2; [replace x with (192 + c / 64) by congruence; lia|].
  destruct ((55296 <=? c) && (c <? 57344)); [discriminate H|]. destruct (c <? 65536); [replace x with (224 + c / 4096) by congruence|replace x with (240 + c / 262144) by congruence]; lia.
Qed.
Lemma utf8_1_nonempty c a : utf8_encode1 c = Some a -> a <> [].
Proof. unfold utf8_encode1. intros H ->. destruct (c <? 128); [discriminate|]. destruct (c <? 2048); [discriminate|]. destruct ((55296 <=? c) && (c <? 57344)); [discriminate|]. destruct (c <? 65536); discriminate. Qed.
Lemma utf8_scheme_state v : forall bs sch rest, utf8_encode v = Some bs -> scheme_state bs = Some (sch, rest) -> exists rest', scheme_state v = Some (sch, rest').
Proof.
  induction v as [|c v IH]; intros bs sch rest H Hs; cbn [utf8_encode] in H; [injection H as <-; discriminate Hs|].
  destruct (utf8_encode1 c) as [a|] eqn:Ea; [|discriminate]. destruct (utf8_encode v) as [b|] eqn:Ev; [|discriminate]. injection H as <-.
  pose proof (utf8_1_nonempty c a Ea) as Hne. destruct a as [|x t]; [congruence|]. cbn [app scheme_state] in Hs.
  assert (Hx : x < 128). { destruct (N.eqb_spec x 58); [lia|]. destruct (scheme_char x) eqn:E; [apply scheme_char_range in E; lia|discriminate Hs]. }
  destruct (utf8_ascii_head c _ x t Ea eq_refl Hx) as [-> ->]. cbn [app] in Hs. cbn [scheme_state]. destruct (x =? 58); [injection Hs as <- _; eauto|]. destruct (scheme_char x); [|discriminate Hs].
  destruct (scheme_state b) as [[s r]|] eqn:Esb; [|discriminate Hs]. injection Hs as <- <-. destruct (IH b s r eq_refl Esb) as (r' & ->). eauto.
Qed.
Lemma quoted_head bs c t : flat_map quote_byte bs = c :: t -> c <> 37 -> exists bs', bs = c :: bs' /\ t = flat_map quote_byte bs'.
Proof. destruct bs as [|b bs]; [discriminate|]. cbn [flat_map]. unfold quote_byte at 1. destruct (quote_safe b); intros H Hc; cbn [app] in H; injection H as <- <-; [eauto|congruence]. Qed.
Lemma utf8_head v bs x bs' : utf8_encode v = Some bs -> bs = x :: bs' -> x < 128 -> exists v', v = x :: v' /\ utf8_encode v' = Some bs'.
Proof.
  destruct v as [|c v]; cbn [utf8_encode]; intros H E Hx; [injection H as <-; discriminate E|]. destruct (utf8_encode1 c) as [a|] eqn:Ea; [|discriminate]. destruct (utf8_encode v) as [b|] eqn:Ev; [|discriminate].
  assert (Hb : (a ++ b)%list = x :: bs') by congruence. pose proof (utf8_1_nonempty c a Ea) as Hne. destruct a as [|y t]; [congruence|]. cbn [app] in Hb. injection Hb as -> Hb.
  destruct (utf8_ascii_head c _ x t Ea eq_refl Hx) as [-> ->]. exists v. cbn [app] in Hb. subst. auto.
Qed.

Lemma escape_safe v e : unicode v -> tidy v -> v <> [] -> escape_url_value v = Some e ->
  (forall s, browser_scheme e = Some s -> browser_scheme v = Some s) /\ (protocol_relative e -> exists t, v = 47 :: 47 :: t).
Proof.
  intros Hu Ht Hne H. unfold escape_url_value in H. destruct v as [|c0 v0] eqn:E0; [congruence|]. rewrite <- E0 in *. clear E0 c0 v0.
  destruct (utf8_encode v) as [bs|] eqn:Eb; [|discriminate]. assert (e = flat_map quote_byte bs) by (cbn in H; congruence). subst e. clear H.
  destruct (utf8_decode_encode _ Hu _ Eb) as [_ Hbs]. split.
  - intros s Hs. unfold browser_scheme in *. rewrite (quoted_input bs Hbs) in Hs. rewrite (tidy_input v Ht). destruct (scheme_start (flat_map quote_byte bs)) as [[sch rest]|] eqn:Es; [|discriminate Hs]. cbn in Hs. injection Hs as <-.
    unfold scheme_start in Es. destruct (flat_map quote_byte bs) as [|c t] eqn:Ef; [discriminate Es|]. destruct (is_alpha_ascii c) eqn:Ea; [|discriminate Es]. rewrite <- Ef in Es.
    assert (Hc : c <> 37 /\ c < 128) by (unfold is_alpha_ascii, is_upper_ascii, is_lower_ascii in Ea; lia). destruct Hc as [Hc37 Hc].
    destruct (quoted_head bs c t Ef Hc37) as (bs' & Ebs & _). destruct (utf8_head _ _ _ _ Eb Ebs Hc) as (v' & Ev & _).
    destruct (quoted_scheme_state _ _ _ Es) as (r1 & Es1). destruct (utf8_scheme_state _ _ _ _ Eb Es1) as (r2 & Es2). unfold scheme_start. rewrite Ev at 1. rewrite Ea, Es2. reflexivity.
  - intros (_ & a & b & t & E & Ha & Hb). rewrite (quoted_input bs Hbs) in E.
    assert (Ga : a <> 92 /\ b <> 92). { pose proof (quoted_chars bs Hbs) as G. rewrite E in G. pose proof (G a (or_introl eq_refl)). pose proof (G b (or_intror (or_introl eq_refl))). tauto. }
    assert (a = 47) by (unfold slash in Ha; lia). assert (b = 47) by (unfold slash in Hb; lia). subst a b.
    destruct (quoted_head _ _ _ E ltac:(discriminate)) as (bs1 & E1 & Er). symmetry in Er. destruct (quoted_head _ _ _ Er ltac:(discriminate)) as (bs2 & E2 & _).
    destruct (utf8_head _ _ _ _ Eb E1 ltac:(reflexivity)) as (v1 & -> & Ev1). destruct (utf8_head _ _ _ _ Ev1 E2 ltac:(reflexivity)) as (v2 & -> & _). eauto.
Qed.

Definition uni (s : str) : bool := forallb (fun c => c <? 1114112) s.
Lemma uni_unicode s : uni s = true <-> unicode s.
Proof. unfold uni, unicode. rewrite forallb_forall, Forall_forall. split; intros H c Hc; specialize (H c Hc); lia. Qed.
Lemma unicode_app a b : unicode a -> unicode b -> unicode (a ++ b)%list.
Proof. unfold unicode. intros. apply Forall_app. split; assumption. Qed.
Lemma unicode_incl a b : incl a b -> unicode b -> unicode a.
Proof. unfold unicode. rewrite !Forall_forall. intros Hi H c Hc. apply H. apply Hi. exact Hc. Qed.
Lemma named_uni : forallb (fun p => uni (snd p)) named_entities = true.
Proof. vm_compute. reflexivity. Qed.
Lemma assoc_In {A} k (l : list (str * A)) v : assoc k l = Some v -> In (k, v) l.
Proof. induction l as [|[k' v'] l IH]; cbn [assoc]; [discriminate|]. destruct (str_eqb k k') eqn:E; [apply str_eqb_eq in E; intros H; injection H as ->; subst; left; reflexivity|intros H; right; exact (IH H)]. Qed.
Lemma assoc_uni k v : assoc k named_entities = Some v -> unicode v.
Proof. intros H. apply assoc_In in H. pose proof named_uni as G. rewrite forallb_forall in G. specialize (G _ H). apply uni_unicode. exact G. Qed.
Lemma legacy_prefix_uni t k v n : legacy_prefix t k = Some (v, n) -> unicode v.
Proof.
  induction k as [|k IH]; [discriminate|]. cbn [legacy_prefix]. destruct (in_strs _ _); [|exact IH]. destruct (assoc _ named_entities) as [w|] eqn:E; [|exact IH]. intros H. assert (v = w) by congruence. subst w. exact (assoc_uni _ _ E).
Qed.
Lemma decode_numeric_uni t h s : decode_numeric_entity t h = Some s -> unicode s.
Proof.
  unfold decode_numeric_entity. cbv zeta. destruct (Nat.ltb _ _); [intros H; assert (s = [65533]) by congruence; subst; apply uni_unicode; reflexivity|].
  destruct (py_int _ _ _) as [cp|]; [|discriminate]. destruct (1114111 <? cp) eqn:E; [intros H; assert (s = [65533]) by congruence; subst; apply uni_unicode; reflexivity|].
  destruct (_ && _); [intros H; assert (s = [65533]) by congruence; subst; apply uni_unicode; reflexivity|].
  destruct (List.find _ numeric_replacements) as [p|] eqn:Ef.
  - intros H. assert (s = [snd p]) by congruence. subst s. apply find_some in Ef. destruct Ef as [Ef _].
    assert (G : forallb (fun p => snd p <? 1114112) numeric_replacements = true) by (vm_compute; reflexivity). rewrite forallb_forall in G. specialize (G _ Ef). apply uni_unicode. unfold uni. cbn [forallb]. rewrite G. reflexivity.
  - intros H. assert (s = [cp]) by congruence. subst s. apply uni_unicode. unfold uni. cbn [forallb]. lia.
Qed.
Lemma firstn_incl {A} n (l : list A) : incl (firstn n l) l.
Proof. intros x Hx. rewrite <- (firstn_skipn n l). apply in_or_app. left. exact Hx. Qed.
Lemma amp_uni t n : unicode t -> unicode (38 :: firstn n t).
Proof. intros H. unfold unicode. constructor; [lia|]. exact (unicode_incl _ _ (firstn_incl n t) H). Qed.
Lemma entity_step_uni a t w n : unicode t -> entity_step a t = EntOk w n -> unicode w.
Proof.
  intros Ht. assert (H38 : unicode [38]) by (apply uni_unicode; reflexivity). unfold entity_step. destruct t as [|c t1] eqn:Et; [intros H; assert (w = [38]) by congruence; subst; exact H38|]. rewrite <- Et in *.
  destruct (c =? 35).
  - unfold entity_numeric. cbv zeta. destruct (take_while _ _) as [|d ds]; [intros H|].
    + match type of H with EntOk ?x _ = _ => assert (Hw : w = x) by congruence end. rewrite Hw. apply amp_uni. exact Ht.
    + destruct (decode_numeric_entity _ _) as [s|] eqn:E; [|discriminate]. intros H. assert (w = s) by congruence. subst s. exact (decode_numeric_uni _ _ _ E).
  - unfold entity_named. cbv zeta. destruct (take_while isname t) as [|d ds]; [intros H; assert (w = [38]) by congruence; subst w; exact H38|].
    set (name := if Nat.leb _ _ then _ else _). set (best := legacy_prefix t _).
    assert (Hbest : forall v k, best = Some (v, k) -> unicode v) by (intros v k; apply legacy_prefix_uni).
    destruct (if semi (drop_while isname t) then assoc name named_entities else None) as [v|] eqn:E1.
    { intros H. assert (w = v) by congruence. subst v. destruct (semi _); [|discriminate E1]. exact (assoc_uni _ _ E1). }
    destruct (if semi (drop_while isname t) && negb a then best else None) as [[v k]|] eqn:E2.
    { intros H. assert (w = v) by congruence. subst v. destruct (semi _ && negb a); [|discriminate E2]. exact (Hbest _ _ E2). }
    destruct (if in_strs name legacy_entities then assoc name named_entities else None) as [v|] eqn:E3.
    { destruct (in_strs name legacy_entities); [|discriminate E3]. destruct (a && _); intros H; [assert (w = [38]) by congruence; subst w; exact H38|assert (w = v) by congruence; subst v; exact (assoc_uni _ _ E3)]. }
    destruct best as [[v k]|].
    { destruct a; intros H; [assert (w = [38]) by congruence; subst w; exact H38|assert (w = v) by congruence; subst v; exact (Hbest _ _ eq_refl)]. }
    destruct (semi _); intros H; [|assert (w = [38]) by congruence; subst w; exact H38].
    match type of H with EntOk ?x _ = _ => assert (Hw : w = x) by congruence end. rewrite Hw. apply amp_uni. exact Ht.
Qed.
Lemma decode_go_uni a s : unicode s -> forall k w, decode_go a k s = Some w -> unicode w.
Proof.
  induction s as [|c s IH]; intros Hs k w H; cbn [decode_go] in H; [assert (w = []) by congruence; subst; constructor|].
  assert (Hc : c < 1114112) by exact (Forall_inv Hs). assert (Hs' : unicode s) by exact (Forall_inv_tail Hs). specialize (IH Hs').
  destruct k as [|k]; [|exact (IH k w H)]. destruct (c =? 38).
  - destruct (entity_step a s) as [|x n] eqn:E; [discriminate|]. destruct (decode_go a n s) as [y|] eqn:Ey; [|discriminate]. assert (w = (x ++ y)%list) by (cbn in H; congruence). subst w.
    apply unicode_app; [exact (entity_step_uni _ _ _ _ Hs' E)|exact (IH _ _ Ey)].
  - destruct (decode_go a O s) as [y|] eqn:Ey; [|discriminate]. assert (w = c :: y) by (cbn in H; congruence). subst w. constructor; [exact Hc|exact (IH _ _ Ey)].
Qed.
Lemma prepare_uni value v : unicode value -> prepare_standalone value = Some v -> unicode v.
Proof.
  unfold prepare_standalone. intros Hu H. destruct (mem 38 value).
  - unfold decode_entities_in_text in H. destruct (decode_go true 0 value) as [w|] eqn:E; [|discriminate]. assert (v = strip_invisible w) by (cbn in H; congruence). subst v. exact (unicode_incl _ _ (strip_invisible_incl w) (decode_go_uni _ _ Hu _ _ E)).
  - assert (v = strip_invisible value) by congruence. subst v. exact (unicode_incl _ _ (strip_invisible_incl value) Hu).
Qed.

Lemma clean_url_safe py value r out : schemes_valid r -> r_handling r = None \/ r_handling r = Some HAllow ->
  unicode value -> clean_url_value py value r = Keep out ->
  (forall s, browser_scheme out = Some s -> In s (allowed_schemes r)) /\ ~ protocol_relative out.
Proof.
  intros Hv Hh Hu0 H. unfold clean_url_value in H.
  assert (H' : match prepare_standalone value with
    | Some v => match sanitize_url_value py r v [42] [42] HAllow (match r_allow_relative r with Some b => b | None => true end) (r_proxy r) None with
                | Keep s => match escape_url_value s with Some e => Keep e | None => Err end
                | x => x end
    | None => Err end = Keep out) by (destruct Hh as [E|E]; rewrite E in H; exact H). clear H.
  destruct (prepare_standalone value) as [v|] eqn:Ep; [|discriminate]. set (ar := match r_allow_relative r with Some b => b | None => true end) in *.
  destruct (sanitize_url_value py r v [42] [42] HAllow ar (r_proxy r) None) as [|w|] eqn:Es; try discriminate.
  destruct (escape_url_value w) as [e|] eqn:Ee; [|discriminate]. assert (e = out) by congruence. subst e. clear H'.
  destruct (sanitize_tidy _ _ _ _ _ _ _ _ _ Hv Es) as [Ht Hne].
  assert (Huw : unicode w).
  { unfold sanitize_url_value in Es. apply sanitize_kept in Es. destruct Es as (_ & _ & _ & Hk).
    pose proof (prepare_uni _ _ Hu0 Ep) as Hu. unfold unicode in Hu. rewrite Forall_forall in Hu.
    assert (Hst : forall c, In c (strip (strip_invisible v)) -> c < 1114112) by (intros c Hc; apply (Hu c); apply strip_invisible_incl; exact (strip_incl _ _ c Hc)).
    destruct Hk as [? ?|r0 ? ? ? Hin ?|? ? ? ? ? ? ?|? ? ? ? ?|? ? ? ?]; try (unfold unicode; try apply Forall_forall; exact Hst).
    unfold unicode. try apply Forall_forall. intros c Hc. apply in_app_iff in Hc. destruct Hc as [Hc|[<-|Hc]].
    - destruct (valid_scheme_facts _ (Hv _ Hin)) as (_ & Hf & _). rewrite forallb_forall in Hf. specialize (Hf c Hc). apply scheme_char_range in Hf. lia.
    - lia.
    - apply Hst. exact (normalize_incl _ c Hc). }
  destruct (escape_safe w out Huw Ht Hne Ee) as [S1 S2]. split.
  - intros s Hs. exact (c12 _ _ _ _ _ _ _ _ _ _ Hv Es (S1 s Hs)).
  - intros Hp. destruct (S2 Hp) as (t & ->). apply (c14 _ _ _ _ _ _ _ _ _ Hv Es). split.
    + unfold browser_scheme. rewrite (tidy_input _ Ht). reflexivity.
    + exists 47, 47, t. split; [apply tidy_input; exact Ht|split; reflexivity].
Qed.

(* ---------- C16: what is proxied is what would have been allowed ---------- *)
Definition proxies (px : option url_proxy) (a b : outcome) : Prop :=
  forall out, a = Keep out -> exists p x, px = Some p /\ b = Keep x /\ proxy_url_value p x = Keep out.
Lemma proxies_drop px b : proxies px Drop b. Proof. intros out H. discriminate H. Qed.
Lemma proxies_finish px x : proxies px (finish HProxy px x x) (finish HAllow px x x).
Proof. intros out H. cbn in *. destruct px as [p|]; [|discriminate H]. exists p, x. auto. Qed.
Lemma prepared_proxies py rule v ar px : proxies px (sanitize_prepared py rule v HProxy ar px) (sanitize_prepared py rule v HAllow ar px).
Proof.
  unfold sanitize_prepared. cbv zeta. destruct (existsb control_char (strip v)); [apply proxies_drop|]. destruct (normalize_url (strip v)) as [|c n]; [apply proxies_drop|].
  destruct (mem 92 (c :: n)); [apply proxies_drop|]. destruct (starts [35] (c :: n)); [destruct (negb (allow_fragment rule)); [apply proxies_drop|apply proxies_finish]|].
  destruct (has_invalid_scheme_like_prefix (c :: n)); [apply proxies_drop|]. destruct (starts (u "//") (c :: n)).
  - destruct (resolve_protocol_relative rule) as [[|x r]|]; try apply proxies_drop. destruct (negb _); [apply proxies_drop|]. destruct (match allowed_hosts rule with Some _ => _ | None => _ end); [apply proxies_drop|apply proxies_finish].
  - destruct (get_scheme (c :: n)) as [sch|].
    + destruct (negb (in_strs sch (allowed_schemes rule))); [apply proxies_drop|]. destruct (_ && _).
      * destruct (allowed_hosts rule); [apply proxies_drop|]. destruct (negb ar); [apply proxies_drop|apply proxies_finish].
      * destruct (match allowed_hosts rule with Some _ => _ | None => _ end); [apply proxies_drop|apply proxies_finish].
    + destruct (negb ar); [apply proxies_drop|apply proxies_finish].
Qed.
Lemma c16_full py rule value tag attr ar px f out : sanitize_url_value py rule value tag attr HProxy ar px f = Keep out ->
  exists p x a b, px = Some p /\ sanitize_url_value py rule value tag attr HAllow ar px f = Keep x /\ quote0 (px_param p) = Some a /\ quote0 x = Some b /\
    out = (px_url p ++ (if mem 63 (px_url p) then [38] else [63]) ++ a ++ [61] ++ b)%list.
Proof.
  intros H. assert (G : proxies px (sanitize_url_value py rule value tag attr HProxy ar px f) (sanitize_url_value py rule value tag attr HAllow ar px f)).
  { unfold sanitize_url_value. destruct f as [f|]; [destruct (f tag attr value); [|apply proxies_drop]|]; apply prepared_proxies. }
  destruct (G out H) as (p & x & Hp & Hx & Hq). unfold proxy_url_value in Hq. destruct (quote0 (px_param p)) as [a|] eqn:Ea; [|discriminate]. destruct (quote0 x) as [b|] eqn:Eb; [|discriminate].
  exists p, x, a, b. repeat split; auto. congruence.
Qed.

(* ---------- statements as used in PropertiesUrl.v ---------- *)
Lemma c16_final py rule value tag attr ar px f out : sanitize_url_value py rule value tag attr HProxy ar px f = Keep out ->
  exists p x a b, px = Some p /\ sanitize_url_value py rule value tag attr HAllow ar px f = Keep x /\
    out = (px_url p ++ (if mem 63 (px_url p) then [38] else [63]) ++ a ++ [61] ++ b)%list /\
    (unicode (px_param p) -> exists bytes, percent_decode a = Some bytes /\ utf8_decode bytes = Some (px_param p)) /\
    (unicode x -> (exists bytes, percent_decode b = Some bytes /\ utf8_decode bytes = Some x) /\ forall c, In c b -> is_alnum_ascii c = true \/ In c (u "_.-~%")).
Proof.
  intros H. destruct (c16_full _ _ _ _ _ _ _ _ _ H) as (p & x & a & b & H1 & H2 & H3 & H4 & H5). exists p, x, a, b. split; [exact H1|]. split; [exact H2|]. split; [exact H5|].
  split; [intros Hu; exact (quote0_decodes _ _ Hu H3)|]. intros Hu. split; [exact (quote0_decodes _ _ Hu H4)|exact (quote0_alphabet _ _ Hu H4)].
Qed.
Lemma c16_no_proxy py rule value tag attr ar f : sanitize_url_value py rule value tag attr HProxy ar None f = Drop.
Proof.
  destruct (sanitize_url_value py rule value tag attr HProxy ar None f) as [|out|] eqn:E; [reflexivity| |].
  - destruct (c16_full _ _ _ _ _ _ _ _ _ E) as (p & _ & _ & _ & H & _). discriminate H.
  - exfalso. unfold sanitize_url_value in E. assert (G : forall v, sanitize_prepared py rule v HProxy ar None = Err -> False).
    { intros v Hv. pose proof (sanitize_prepared_proxy py rule v ar None) as Hp. rewrite Hv in Hp. destruct Hp as (p & Hp). discriminate Hp. }
    destruct f as [f|]; [destruct (f tag attr value); [|discriminate E]|]; exact (G _ E).
Qed.
