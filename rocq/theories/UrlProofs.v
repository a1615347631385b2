(* Proofs: URL cleaning *)
From Coq Require Import Lia ZifyBool ZifyN ZifyNat.
From Verif Require Import Str StrFacts ListFacts UrlSpec SerializerModel UrlModel.
Open Scope N_scope.

(* ---------- shape of cleaned values ---------- *)
(* no C0 control or DEL, no space at either end *)
Definition tidy (s : str) : Prop :=
  existsb control_char s = false /\ (forall c t, s = c :: t -> c <> 32) /\ (forall c t, s = (t ++ [c])%list -> c <> 32).

Lemma is_space_32 : is_space 32 = true. Proof. reflexivity. Qed.

Lemma strip_tidy v : existsb control_char (strip v) = false -> tidy (strip v).
Proof.
  intros H. split; [exact H|]. split; intros c t E ->.
  - apply strip_first in E. rewrite is_space_32 in E. discriminate.
  - apply strip_last in E. rewrite is_space_32 in E. discriminate.
Qed.

Lemma control_false s : existsb control_char s = false <-> forall c, In c s -> 32 <= c /\ c <> 127.
Proof.
  split.
  - intros H c Hc. destruct (control_char c) eqn:E; [|unfold control_char in E; lia].
    assert (existsb control_char s = true) by (apply existsb_exists; eauto). congruence.
  - intros H. destruct (existsb control_char s) eqn:E; [|reflexivity]. apply existsb_exists in E. destruct E as (c & Hc & E). specialize (H c Hc). unfold control_char in E. lia.
Qed.

Lemma filter_all {A} (p : A -> bool) l : (forall c, In c l -> p c = true) -> filter p l = l.
Proof.
  induction l as [|x l IH]; intros H; [reflexivity|]. cbn [filter]. rewrite (H x (or_introl eq_refl)). f_equal. apply IH. intros c Hc. apply H. right. exact Hc.
Qed.

Lemma tidy_input s : tidy s -> url_input s = s.
Proof.
  intros (H1 & H2 & H3). rewrite control_false in H1. unfold url_input. rewrite strip_by_id.
  - apply filter_all. intros c Hc. specialize (H1 c Hc). unfold tab_or_newline. lia.
  - intros c t E. specialize (H2 c t E). assert (Hc : In c s) by (rewrite E; left; reflexivity). specialize (H1 c Hc). unfold c0_or_space. lia.
  - intros c t E. specialize (H3 c t E). assert (Hc : In c s) by (rewrite E; apply in_or_app; right; left; reflexivity). specialize (H1 c Hc). unfold c0_or_space. lia.
Qed.

Lemma normalize_filter s : normalize_url s = filter (fun c => negb (ws_or_control c)) s.
Proof.
  unfold normalize_url. destruct (existsb ws_or_control s) eqn:E; [reflexivity|]. cbn [negb]. symmetry. apply filter_all. intros c Hc.
  destruct (ws_or_control c) eqn:Ec; [|reflexivity]. assert (existsb ws_or_control s = true) by (apply existsb_exists; eauto). congruence.
Qed.
Lemma normalize_app a b : normalize_url (a ++ b)%list = (normalize_url a ++ normalize_url b)%list.
Proof. rewrite !normalize_filter. apply filter_app. Qed.
Lemma normalize_id a : (forall c, In c a -> ws_or_control c = false) -> normalize_url a = a.
Proof. intros H. rewrite normalize_filter. apply filter_all. intros c Hc. rewrite (H c Hc). reflexivity. Qed.
Lemma normalize_no c s : In c (normalize_url s) -> ws_or_control c = false.
Proof. rewrite normalize_filter. intros H. apply filter_In in H. destruct H as [_ H]. destruct (ws_or_control c); [discriminate|reflexivity]. Qed.
Lemma tidy_head s c t : tidy s -> s = c :: t -> normalize_url s = c :: normalize_url t.
Proof.
  intros (H1 & H2 & _) ->. rewrite !normalize_filter. cbn [filter]. rewrite control_false in H1. specialize (H1 c (or_introl eq_refl)). specialize (H2 c t eq_refl).
  replace (ws_or_control c) with false by (unfold ws_or_control; lia). reflexivity.
Qed.

(* ---------- schemes ---------- *)
Lemma scheme_state_Some s sch rest : scheme_state s = Some (sch, rest) ->
  exists raw, s = (raw ++ 58 :: rest)%list /\ sch = alow raw /\ forallb scheme_char raw = true.
Proof.
  revert sch rest. induction s as [|c s IH]; intros sch rest H; [discriminate|]. cbn [scheme_state] in H.
  destruct (N.eqb_spec c 58) as [->|Hc].
  - injection H as <- <-. exists []. repeat split.
  - destruct (scheme_char c) eqn:Es; [|discriminate]. destruct (scheme_state s) as [[sch' rest']|] eqn:E; [|discriminate]. injection H as <- <-.
    destruct (IH _ _ eq_refl) as (raw & -> & -> & Hr). exists (c :: raw). repeat split. cbn [forallb]. rewrite Es. exact Hr.
Qed.
Lemma scheme_state_app raw rest : forallb scheme_char raw = true -> scheme_state (raw ++ 58 :: rest)%list = Some (alow raw, rest).
Proof.
  induction raw as [|c raw IH]; intros H; [reflexivity|]. cbn [forallb] in H. apply andb_prop in H. destruct H as [Hc Hr]. cbn [app scheme_state].
  assert (Hc' : c <> 58) by (intros ->; discriminate Hc). replace (c =? 58) with false by lia. rewrite Hc, (IH Hr). reflexivity.
Qed.
Lemma scheme_start_Some s sch rest : scheme_start s = Some (sch, rest) ->
  exists raw, s = (raw ++ 58 :: rest)%list /\ sch = alow raw /\ forallb scheme_char raw = true /\ exists c t, raw = c :: t /\ is_alpha_ascii c = true.
Proof.
  unfold scheme_start. destruct s as [|c s]; [discriminate|]. destruct (is_alpha_ascii c) eqn:Ea; [|discriminate]. intros H.
  destruct (scheme_state_Some _ _ _ H) as (raw & E & Hs & Hr). exists raw. repeat split; auto.
  destruct raw as [|d raw]; cbn [app] in E; injection E as -> E; [discriminate Ea|]. exists d, raw. auto.
Qed.

Lemma scheme_char_range c : scheme_char c = true -> 32 < c /\ c < 127 /\ c <> 58 /\ c <> 47 /\ c <> 63 /\ c <> 35 /\ c <> 92.
Proof. unfold scheme_char, is_alnum_ascii, is_alpha_ascii, is_upper_ascii, is_lower_ascii, is_digit_ascii. lia. Qed.
Lemma scheme_char_code c : is_alnum_ascii c || mem c (u "+-.") = scheme_char c.
Proof. unfold scheme_char. cbn. destruct (is_alnum_ascii c); cbn; [reflexivity|]. destruct (c =? 43), (c =? 45), (c =? 46); reflexivity. Qed.
Lemma valid_scheme_code raw : is_valid_scheme raw = true <-> exists c t, raw = c :: t /\ is_alpha_ascii c = true /\ forallb scheme_char raw = true.
Proof.
  unfold is_valid_scheme. destruct raw as [|c t]; [split; [discriminate|intros (? & ? & ? & _); discriminate]|].
  assert (E : forallb (fun ch => is_alnum_ascii ch || mem ch (u "+-.")) t = forallb scheme_char t).
  { clear. induction t as [|x t IH]; [reflexivity|]. cbn [forallb]. rewrite scheme_char_code, IH. reflexivity. }
  rewrite E. split.
  - intros H. apply andb_prop in H. destruct H as [Ha Hf]. exists c, t. repeat split; auto. cbn [forallb]. rewrite Hf. unfold scheme_char, is_alnum_ascii. rewrite Ha. reflexivity.
  - intros (c' & t' & Ec & Ha & Hf). injection Ec as <- <-. cbn [forallb] in Hf. apply andb_prop in Hf. destruct Hf as [_ Hf]. rewrite Ha, Hf. reflexivity.
Qed.

Lemma find_char_app c a b : ~ In c a -> find_char c (a ++ c :: b)%list = Some (List.length a).
Proof.
  induction a as [|x a IH]; intros H; cbn [app find_char]; [rewrite N.eqb_refl; reflexivity|].
  replace (x =? c) with false by (symmetry; apply N.eqb_neq; intros ->; apply H; left; reflexivity).
  rewrite IH by (intros Ha; apply H; right; exact Ha). reflexivity.
Qed.
Lemma find_char_ge c a b j : ~ In c a -> find_char c (a ++ b)%list = Some j -> (List.length a <= j)%nat.
Proof.
  revert j. induction a as [|x a IH]; intros j H E; [cbn; lia|]. cbn [app find_char] in E.
  replace (x =? c) with false in E by (symmetry; apply N.eqb_neq; intros ->; apply H; left; reflexivity).
  destruct (find_char c (a ++ b)%list) as [k|] eqn:Ek; [|discriminate]. cbn in E. injection E as <-. cbn [List.length]. apply le_n_S. apply IH; [intros Ha; apply H; right; exact Ha|reflexivity].
Qed.
Lemma find_or_len_ge sep a b n : ~ In sep a -> (List.length a <= n)%nat -> (List.length a <= find_or_len sep (a ++ b)%list n)%nat.
Proof.
  intros H Hn. unfold find_or_len. destruct (find_char sep (a ++ b)%list) as [j|] eqn:E; [|exact Hn]. destruct (Nat.ltb_spec j n); [|exact Hn]. exact (find_char_ge sep a b j H E).
Qed.
Lemma find_or_len_le sep v n : (find_or_len sep v n <= n)%nat.
Proof. unfold find_or_len. destruct (find_char sep v) as [j|]; [|lia]. destruct (Nat.ltb_spec j n); lia. Qed.
Lemma find_or_len_find sep v n j : find_char sep v = Some j -> (find_or_len sep v n <= j)%nat.
Proof. unfold find_or_len. intros ->. destruct (Nat.ltb_spec j n); lia. Qed.

Lemma scheme_like_app raw rest : raw <> [] -> (forall c, In c raw -> c <> 58 /\ c <> 47 /\ c <> 63 /\ c <> 35) ->
  scheme_like_prefix (raw ++ 58 :: rest)%list = Some raw.
Proof.
  intros Hne H. unfold scheme_like_prefix.
  assert (Hn : forall x, x = 58 \/ x = 47 \/ x = 63 \/ x = 35 -> ~ In x raw) by (intros x Hx Hi; specialize (H x Hi); lia).
  rewrite (find_char_app 58 raw rest) by auto. destruct (List.length raw) as [|n] eqn:El; [destruct raw; [congruence|discriminate El]|]. rewrite <- El.
  assert (G : forall w : str, w = (raw ++ 58 :: rest)%list -> (S (List.length raw) <= find_or_len 35 w (find_or_len 63 w (find_or_len 47 w (List.length w))))%nat).
  { intros w ->. replace (raw ++ 58 :: rest)%list with ((raw ++ [58]) ++ rest)%list by (rewrite <- app_assoc; reflexivity).
    assert (L : List.length (raw ++ [58])%list = S (List.length raw)) by (rewrite app_length; cbn; lia). rewrite <- L.
    assert (Hn' : forall x, x = 47 \/ x = 63 \/ x = 35 -> ~ In x (raw ++ [58])%list).
    { intros x Hx Hi. apply in_app_iff in Hi. destruct Hi as [Hi|[Hi|[]]]; [apply (Hn x); tauto|lia]. }
    apply find_or_len_ge; [auto|]. apply find_or_len_ge; [auto|]. apply find_or_len_ge; [auto|]. rewrite (app_length (raw ++ [58]) rest). lia. }
  replace (Nat.leb _ (List.length raw)) with false by (symmetry; apply Nat.leb_gt; specialize (G _ eq_refl); lia).
  rewrite firstn_app, Nat.sub_diag, firstn_all. cbn. rewrite app_nil_r. reflexivity.
Qed.

Lemma lower_scheme raw : forallb scheme_char raw = true -> lower raw = alow raw.
Proof.
  intros H. apply lower_ascii. unfold is_ascii. apply forallb_forall. intros c Hc. rewrite forallb_forall in H. specialize (H c Hc). apply scheme_char_range in H. unfold is_ascii_char. lia.
Qed.

Lemma get_scheme_app raw rest : (exists c t, raw = c :: t /\ is_alpha_ascii c = true) -> forallb scheme_char raw = true ->
  get_scheme (raw ++ 58 :: rest)%list = Some (alow raw).
Proof.
  intros (c & t & -> & Ha) Hf. unfold get_scheme. rewrite scheme_like_app; [|discriminate|].
  - replace (is_valid_scheme (c :: t)) with true by (symmetry; apply valid_scheme_code; eauto). rewrite lower_scheme by exact Hf. reflexivity.
  - intros x Hx. rewrite forallb_forall in Hf. specialize (Hf x Hx). apply scheme_char_range in Hf. lia.
Qed.

(* the scheme a browser sees is the one the code computes *)
Lemma browser_get_scheme st s : tidy st -> browser_scheme st = Some s -> get_scheme (normalize_url st) = Some s.
Proof.
  intros Ht H. unfold browser_scheme in H. rewrite (tidy_input st Ht) in H. destruct (scheme_start st) as [[sch rest]|] eqn:E; [|discriminate]. cbn in H. injection H as <-.
  destruct (scheme_start_Some _ _ _ E) as (raw & -> & -> & Hf & Hc).
  rewrite normalize_app. change (58 :: rest) with ([58] ++ rest)%list. rewrite normalize_app.
  rewrite (normalize_id raw).
  - change (normalize_url [58]) with [58]. cbn [app]. apply get_scheme_app; assumption.
  - intros c Hi. rewrite forallb_forall in Hf. specialize (Hf c Hi). apply scheme_char_range in Hf. unfold ws_or_control. lia.
Qed.
Lemma browser_scheme_head st s : tidy st -> browser_scheme st = Some s -> exists c t, st = c :: t /\ is_alpha_ascii c = true.
Proof.
  intros Ht H. unfold browser_scheme in H. rewrite (tidy_input st Ht) in H. unfold scheme_start in H. destruct st as [|c t]; [discriminate|].
  destruct (is_alpha_ascii c) eqn:E; [eauto|discriminate].
Qed.
Lemma starts1 c s : starts [c] s = true <-> exists t, s = c :: t.
Proof. rewrite starts_spec. cbn. tauto. Qed.

(* ---------- the cases in which handling = allow returns a value ---------- *)
Inductive kept (py : urllib) (rule : url_rule) (ar : bool) (st : str) : str -> Prop :=
| k_fragment : starts [35] (normalize_url st) = true -> allow_fragment rule = true -> kept py rule ar st st
| k_network r : starts (u "//") (normalize_url st) = true -> resolve_protocol_relative rule = Some r -> r <> [] ->
    In (lower r) (allowed_schemes rule) ->
    (forall hosts, allowed_hosts rule = Some hosts -> url_host_matches py (lower r ++ 58 :: st)%list hosts = true) ->
    kept py rule ar st (lower r ++ 58 :: normalize_url st)%list
| k_relative_http sch : get_scheme (normalize_url st) = Some sch -> In sch (allowed_schemes rule) ->
    (sch = u "http" \/ sch = u "https") -> starts (sch ++ u "://")%list (normalize_url st) = false ->
    allowed_hosts rule = None -> ar = true -> kept py rule ar st st
| k_absolute sch : get_scheme (normalize_url st) = Some sch -> In sch (allowed_schemes rule) ->
    (sch = u "http" \/ sch = u "https" -> starts (sch ++ u "://")%list (normalize_url st) = true) ->
    (forall hosts, allowed_hosts rule = Some hosts -> url_host_matches py st hosts = true) ->
    kept py rule ar st st
| k_relative : get_scheme (normalize_url st) = None -> ar = true -> starts [35] (normalize_url st) = false ->
    starts (u "//") (normalize_url st) = false -> kept py rule ar st st.

Lemma finish_allow px a b out : finish HAllow px a b = Keep out -> out = b.
Proof. cbn. congruence. Qed.

Lemma match_nonempty {A} (l : str) (a b : A) : l <> [] -> match l with [] => a | _ :: _ => b end = b.
Proof. destruct l; [congruence|reflexivity]. Qed.
Lemma sanitize_kept py rule v ar px out : sanitize_prepared py rule v HAllow ar px = Keep out ->
  tidy (strip v) /\ normalize_url (strip v) <> [] /\ ~ In 92 (normalize_url (strip v)) /\ kept py rule ar (strip v) out.
Proof.
  unfold sanitize_prepared. cbv zeta. destruct (existsb control_char (strip v)) eqn:Ec; [discriminate|]. apply strip_tidy in Ec.
  set (st := strip v) in *. assert (Hn : normalize_url st <> [] \/ normalize_url st = []) by (destruct (normalize_url st); [right|left]; congruence).
  destruct Hn as [Hn|Hn]; [|rewrite Hn; discriminate]. rewrite match_nonempty by exact Hn.
  destruct (mem 92 (normalize_url st)) eqn:E92; [discriminate|]. apply mem_false_In in E92. intros H. split; [exact Ec|]. split; [exact Hn|]. split; [exact E92|].
  destruct (starts [35] (normalize_url st)) eqn:E35.
  { destruct (allow_fragment rule) eqn:Ef; [|discriminate]. cbn [negb] in H. apply finish_allow in H. subst out. apply k_fragment; assumption. }
  destruct (starts (u "//") (normalize_url st)) eqn:Ess.
  { destruct (resolve_protocol_relative rule) as [[|c r]|] eqn:Er; try discriminate.
    destruct (in_strs (lower (c :: r)) (allowed_schemes rule)) eqn:Ei; [|discriminate]. cbn [negb] in H. apply in_strs_In in Ei.
    destruct (match allowed_hosts rule with Some hosts => negb (url_host_matches py (lower (c :: r) ++ 58 :: st)%list hosts) | None => false end) eqn:Eh; [discriminate|].
    apply finish_allow in H. subst out. apply k_network; auto; [discriminate|]. intros hosts Hh. rewrite Hh in Eh. apply negb_false_iff in Eh. exact Eh. }
  destruct (get_scheme (normalize_url st)) as [sch|] eqn:Eg.
  - destruct (in_strs sch (allowed_schemes rule)) eqn:Ei; [|discriminate]. cbn [negb] in H. apply in_strs_In in Ei.
    destruct ((str_eqb sch (u "http") || str_eqb sch (u "https")) && negb (starts (sch ++ u "://")%list (normalize_url st))) eqn:Eb.
    + destruct (allowed_hosts rule) eqn:Eh; [discriminate|]. destruct ar eqn:Ea; [|discriminate]. cbn [negb] in H. apply finish_allow in H. subst out.
      apply andb_prop in Eb. destruct Eb as [Eb1 Eb2]. apply negb_true_iff in Eb2. apply orb_prop in Eb1.
      apply (k_relative_http py rule true st sch); auto. destruct Eb1 as [E|E]; apply str_eqb_eq in E; auto.
    + destruct (match allowed_hosts rule with Some hosts => negb (url_host_matches py st hosts) | None => false end) eqn:Eh; [discriminate|].
      apply finish_allow in H. subst out. apply (k_absolute py rule ar st sch); auto.
      * intros Hs. apply andb_false_iff in Eb. destruct Eb as [Eb|Eb]; [|apply negb_false_iff in Eb; exact Eb]. exfalso. apply orb_false_iff in Eb. destruct Eb as [Eb1 Eb2]. apply str_eqb_neq in Eb1, Eb2. tauto.
      * intros hosts Hh. rewrite Hh in Eh. apply negb_false_iff in Eh. exact Eh.
  - destruct ar; [|discriminate]. cbn [negb] in H. apply finish_allow in H. subst out. apply k_relative; auto.
Qed.

(* ---------- C12 ---------- *)
Definition schemes_valid (rule : url_rule) : Prop := forall s, In s (allowed_schemes rule) -> valid_scheme s.

Lemma valid_scheme_facts s : valid_scheme s -> (exists c t, s = c :: t /\ is_alpha_ascii c = true) /\ forallb scheme_char s = true /\ alow s = s.
Proof.
  intros (c & t & -> & Hc & Ht). repeat split.
  - exists c, t. split; [reflexivity|]. unfold is_alpha_ascii. rewrite Hc. apply orb_true_r.
  - cbn [forallb]. apply andb_true_intro. split; [unfold scheme_char, is_alnum_ascii, is_alpha_ascii; rewrite Hc, orb_true_r; reflexivity|].
    apply forallb_forall. intros x Hx. rewrite forallb_forall in Ht. specialize (Ht x Hx). apply andb_prop in Ht. tauto.
  - unfold alow. cbn [map]. f_equal; [unfold alow_c; replace (is_upper_ascii c) with false; [reflexivity|unfold is_lower_ascii, is_upper_ascii in *; lia]|].
    rewrite <- (map_id t) at 2. apply map_ext_in. intros x Hx. rewrite forallb_forall in Ht. specialize (Ht x Hx). apply andb_prop in Ht. destruct Ht as [_ Ht]. apply negb_true_iff in Ht. unfold alow_c. rewrite Ht. reflexivity.
Qed.

Lemma network_tidy s st : valid_scheme s -> tidy st -> normalize_url st <> [] -> tidy (s ++ 58 :: normalize_url st)%list.
Proof.
  intros Hs Ht Hn. destruct (valid_scheme_facts s Hs) as ((c & t & -> & Ha) & Hf & _). split; [|split].
  - apply control_false. intros x Hx. apply in_app_iff in Hx. destruct Hx as [Hx|[<-|Hx]].
    + rewrite forallb_forall in Hf. specialize (Hf x Hx). apply scheme_char_range in Hf. lia.
    + lia.
    + apply normalize_no in Hx. unfold ws_or_control in Hx. lia.
  - intros d t' E. cbn [app] in E. injection E as <- _. unfold is_alpha_ascii, is_upper_ascii, is_lower_ascii in Ha. lia.
  - intros d t' E. destruct (exists_last Hn) as (n' & x & En). rewrite En in E.
    replace ((c :: t) ++ 58 :: n' ++ [x])%list with (((c :: t) ++ 58 :: n') ++ [x])%list in E by (rewrite <- app_assoc; reflexivity).
    apply app_inj_tail in E. destruct E as [_ <-]. assert (Hx : In x (normalize_url st)) by (rewrite En; apply in_or_app; right; left; reflexivity).
    apply normalize_no in Hx. unfold ws_or_control in Hx. lia.
Qed.

Lemma kept_scheme py rule ar st out s : schemes_valid rule -> tidy st -> normalize_url st <> [] -> kept py rule ar st out ->
  browser_scheme out = Some s -> In s (allowed_schemes rule).
Proof.
  intros Hv Ht Hn Hk Hb. destruct Hk as [Hf _|r Hss _ _ Hin _|sch Hg Hin _ _ _ _|sch Hg Hin _ _|Hg _ _ _].
  - exfalso. destruct (browser_scheme_head _ _ Ht Hb) as (c & t & E & Ha). apply starts1 in Hf. destruct Hf as (x & Hx). rewrite (tidy_head _ _ _ Ht E) in Hx. injection Hx as -> _. discriminate Ha.
  - pose proof (Hv _ Hin) as Hvs. pose proof (network_tidy _ st Hvs Ht Hn) as Htt. destruct (valid_scheme_facts _ Hvs) as (Hc & Hf & Hl).
    apply (browser_get_scheme _ _ Htt) in Hb. rewrite normalize_app in Hb. rewrite (normalize_id (lower r)) in Hb.
    + change (58 :: normalize_url st) with ([58] ++ normalize_url st)%list in Hb. rewrite normalize_app in Hb. change (normalize_url [58]) with [58] in Hb. cbn [app] in Hb.
      rewrite get_scheme_app in Hb by assumption. rewrite Hl in Hb. injection Hb as <-. exact Hin.
    + intros x Hx. rewrite forallb_forall in Hf. specialize (Hf x Hx). apply scheme_char_range in Hf. unfold ws_or_control. lia.
  - apply (browser_get_scheme _ _ Ht) in Hb. congruence.
  - apply (browser_get_scheme _ _ Ht) in Hb. congruence.
  - apply (browser_get_scheme _ _ Ht) in Hb. congruence.
Qed.

Lemma c12 py rule value tag attr ar px f out s : schemes_valid rule ->
  sanitize_url_value py rule value tag attr HAllow ar px f = Keep out -> browser_scheme out = Some s -> In s (allowed_schemes rule).
Proof.
  intros Hv H Hb. assert (G : forall v, sanitize_prepared py rule v HAllow ar px = Keep out -> In s (allowed_schemes rule)).
  { intros v Hs. apply sanitize_kept in Hs. destruct Hs as (H1 & H2 & _ & H4). exact (kept_scheme _ _ _ _ _ _ Hv H1 H2 H4 Hb). }
  unfold sanitize_url_value in H. destruct f as [f|]; [destruct (f tag attr value); [|discriminate]|]; exact (G _ H).
Qed.

(* ---------- C14: protocol-relative ---------- *)
Lemma kept_not_network py rule ar st out : schemes_valid rule -> tidy st -> normalize_url st <> [] -> ~ In 92 (normalize_url st) -> kept py rule ar st out -> ~ protocol_relative out.
Proof.
  intros Hv Ht Hn H92 Hk (Hb & a & b & t & E & Ha & Hb2).
  assert (Hst : out = st -> starts (u "//") (normalize_url st) = true).
  { intros ->. rewrite (tidy_input st Ht) in E. assert (Hi : In a st /\ In b st) by (rewrite E; split; [left; reflexivity|right; left; reflexivity]).
    assert (Ea : a = 47). { unfold slash in Ha. destruct (N.eqb_spec a 92) as [->|]; [|lia]. exfalso. apply H92. rewrite normalize_filter. apply filter_In. split; [tauto|reflexivity]. }
    assert (Eb : b = 47). { unfold slash in Hb2. destruct (N.eqb_spec b 92) as [->|]; [|lia]. exfalso. apply H92. rewrite normalize_filter. apply filter_In. split; [tauto|reflexivity]. }
    subst a b. rewrite E. rewrite normalize_filter. reflexivity. }
  assert (Hne : starts (u "//") (normalize_url st) = true -> starts [35] (normalize_url st) = false).
  { intros Hs. apply starts_spec in Hs. destruct Hs as (x & ->). reflexivity. }
  assert (Hgs : starts (u "//") (normalize_url st) = true -> get_scheme (normalize_url st) = None).
  { intros Hs. apply starts_spec in Hs. destruct Hs as (x & ->). unfold get_scheme. destruct (scheme_like_prefix (u "//" ++ x)%list) as [p|] eqn:Ep; [|reflexivity].
    unfold scheme_like_prefix in Ep. destruct (find_char 58 (u "//" ++ x)%list) as [[|i]|]; try discriminate. destruct (Nat.leb _ _); [discriminate|]. injection Ep as <-. reflexivity. }
  destruct Hk as [Hf _|r Hss _ _ Hin _|sch Hg Hin _ _ _ _|sch Hg Hin _ _|Hg _ Hf Hs].
  - specialize (Hst eq_refl). rewrite (Hne Hst) in Hf. discriminate.
  - pose proof (Hv _ Hin) as Hvs. pose proof (network_tidy _ st Hvs Ht Hn) as Htt. destruct (valid_scheme_facts _ Hvs) as ((c & t' & Hc & Hal) & _). rewrite (tidy_input _ Htt), Hc in E. cbn [app] in E. injection E as <- _.
    unfold is_alpha_ascii, is_upper_ascii, is_lower_ascii, slash in *. lia.
  - specialize (Hst eq_refl). rewrite (Hgs Hst) in Hg. discriminate.
  - specialize (Hst eq_refl). rewrite (Hgs Hst) in Hg. discriminate.
  - specialize (Hst eq_refl). congruence.
Qed.
