(* Cleaning a cleaned URL changes nothing. *)
From Coq Require Import Lia ZifyBool ZifyN ZifyNat.
From Verif Require Import Str StrFacts ListFacts UrlSpec SerializerModel UrlModel UrlProofs UrlHostProofs UrlListProofs.
Open Scope N_scope.

Lemma strip_invisible_none s : (forall c, In c s -> is_invisible c = false) -> strip_invisible s = s.
Proof. intros H. rewrite strip_invisible_filter. apply filter_all. intros c Hc. rewrite (H c Hc). reflexivity. Qed.
Lemma strip_invisible_no s c : In c (strip_invisible s) -> is_invisible c = false.
Proof. rewrite strip_invisible_filter. intros H. apply filter_In in H. destruct H as [_ H]. destruct (is_invisible c); [discriminate H|reflexivity]. Qed.
Lemma strip_invisible_idem s : strip_invisible (strip_invisible s) = strip_invisible s.
Proof. apply strip_invisible_none. intros c. apply strip_invisible_no. Qed.
Lemma ascii_visible c : c < 128 -> is_invisible c = false.
Proof. intros H. unfold is_invisible, in_ranges, invisible_ranges. cbn [existsb fst snd]. lia. Qed.

Lemma prepared_strip py rule a b h ar px : strip a = strip b -> sanitize_prepared py rule a h ar px = sanitize_prepared py rule b h ar px.
Proof. intros H. unfold sanitize_prepared. rewrite H. reflexivity. Qed.

Definition plain_allow (rule : url_rule) : Prop := schemes_valid rule /\ allowed_hosts rule = None.
Lemma prepared_network py rule r st ar px : plain_allow rule -> resolve_protocol_relative rule = Some r -> In (lower r) (allowed_schemes rule) ->
  tidy st -> (forall c t, st = (t ++ [c])%list -> is_space c = false) -> ~ In 92 (normalize_url st) -> starts (u "//") (normalize_url st) = true ->
  strip (lower r ++ 58 :: normalize_url st)%list = (lower r ++ 58 :: normalize_url st)%list /\
  sanitize_prepared py rule (lower r ++ 58 :: normalize_url st)%list HAllow ar px = Keep (lower r ++ 58 :: normalize_url st)%list.
Proof.
  intros [Hv Hh] Hr Hin Ht Hl H92 Hs. pose proof (Hv _ Hin) as Hvs. destruct (valid_scheme_facts _ Hvs) as (Hc & Hf & Ha).
  assert (Hn : normalize_url st <> []) by (intros E; rewrite E in Hs; discriminate Hs).
  pose proof (network_tidy _ st Hvs Ht Hn) as Htt. set (out := (lower r ++ 58 :: normalize_url st)%list) in *.
  assert (Hws : forall c, In c out -> ws_or_control c = false).
  { intros c Hi. apply in_app_or in Hi. destruct Hi as [Hi|[<-|Hi]]; [|reflexivity|eapply normalize_no; exact Hi].
    rewrite forallb_forall in Hf. specialize (Hf c Hi). apply scheme_char_range in Hf. unfold ws_or_control. lia. }
  assert (Hstrip : strip out = out).
  { apply strip_by_id.
    - intros c t E. destruct Hc as (c0 & t0 & Ec & Hal). unfold out in E. rewrite Ec in E. cbn [app] in E. injection E as <- _.
      apply scheme_char_plain. rewrite Ec in Hf. cbn [forallb] in Hf. apply andb_prop in Hf. apply Hf.
    - intros c t E. assert (Hst : st <> []) by (intros ->; apply Hn; reflexivity). destruct (exists_last Hst) as (st' & x & Ex).
      pose proof (Hl x st' Ex) as Hx. destruct Ht as (Ht1 & _ & Ht3).
      assert (Wx : ws_or_control x = false).
      { rewrite control_false in Ht1. assert (Hi : In x st) by (rewrite Ex; apply in_or_app; right; left; reflexivity). specialize (Ht1 x Hi). specialize (Ht3 x st' Ex). unfold ws_or_control. lia. }
      assert (En : normalize_url st = (normalize_url st' ++ [x])%list).
      { rewrite Ex, normalize_app. f_equal. apply normalize_id. intros c0 [<-|[]]. exact Wx. }
      unfold out in E. rewrite En in E. replace (lower r ++ 58 :: normalize_url st' ++ [x])%list with ((lower r ++ 58 :: normalize_url st') ++ [x])%list in E by (rewrite <- app_assoc; reflexivity).
      apply app_inj_tail in E. destruct E as [_ <-]. exact Hx. }
  split; [exact Hstrip|]. unfold sanitize_prepared. rewrite Hstrip. cbv zeta.
  destruct Htt as (Htt & _). rewrite Htt. assert (Hno : normalize_url out = out) by (apply normalize_id; exact Hws). rewrite Hno.
  rewrite match_nonempty by (unfold out; destruct (lower r); discriminate).
  assert (E92 : mem 92 out = false).
  { apply mem_false_In. unfold out. intros Hi. apply in_app_or in Hi. destruct Hi as [Hi|[Hi|Hi]]; [|discriminate Hi|exact (H92 Hi)].
    rewrite forallb_forall in Hf. specialize (Hf 92 Hi). discriminate Hf. }
  rewrite E92. destruct Hc as (c0 & t0 & Ec & Hal).
  assert (Es : forall d l, d = 35 \/ d = 47 -> starts (d :: l) out = false).
  { intros d l Hd. unfold out. rewrite Ec. cbn [app starts]. destruct (N.eqb_spec d c0) as [->|]; [|reflexivity]. exfalso. unfold is_alpha_ascii, is_upper_ascii, is_lower_ascii in Hal. lia. }
  rewrite (Es 35 []) by auto. change (u "//") with [47; 47]. rewrite (Es 47 [47]) by auto.
  assert (Eg : get_scheme out = Some (lower r)) by (unfold out; rewrite get_scheme_app; [rewrite Ha; reflexivity|eauto|exact Hf]).
  rewrite Eg. apply in_strs_In in Hin. rewrite Hin. cbn [negb].
  assert (Est : starts (lower r ++ u "://")%list out = true).
  { apply starts_spec in Hs. destruct Hs as (x & Hx). unfold out. rewrite Hx. apply starts_spec. exists x. rewrite <- app_assoc. reflexivity. }
  rewrite Est. cbn [negb]. rewrite andb_false_r, Hh. reflexivity.
Qed.
Lemma url_idem py rule value tag attr ar px out : plain_allow rule ->
  sanitize_url_value py rule value tag attr HAllow ar px None = Keep out ->
  sanitize_url_value py rule out tag attr HAllow ar px None = Keep out /\ strip_invisible out = out.
Proof.
  intros Hp H. unfold sanitize_url_value in *. pose proof H as H0. apply sanitize_kept in H. destruct H as (Ht & Hn & H92 & Hk). set (st := strip (strip_invisible value)) in *.
  assert (Hvis : forall c, In c st -> is_invisible c = false).
  { intros c Hc. apply (strip_incl is_space) in Hc. eapply strip_invisible_no. exact Hc. }
  assert (Q : out = st -> sanitize_prepared py rule (strip_invisible out) HAllow ar px = Keep out /\ strip_invisible out = out).
  { intros ->. rewrite (strip_invisible_none st) by exact Hvis. split; [|reflexivity]. rewrite <- H0. apply prepared_strip. unfold st, strip. apply strip_idem. }
  destruct Hk as [| r Hs Hr Hr0 Hin Hh | | |]; try (apply Q; reflexivity).
  assert (Hv : strip_invisible (lower r ++ 58 :: normalize_url st)%list = (lower r ++ 58 :: normalize_url st)%list).
  { apply strip_invisible_none. intros c Hc. apply in_app_or in Hc. destruct Hc as [Hc|[<-|Hc]]; [|reflexivity|apply Hvis; apply normalize_incl; exact Hc].
    destruct Hp as [Hp _]. destruct (valid_scheme_facts _ (Hp _ Hin)) as (_ & Hf & _). rewrite forallb_forall in Hf. specialize (Hf c Hc). apply scheme_char_range in Hf. apply ascii_visible. lia. }
  split; [|exact Hv]. rewrite Hv. apply prepared_network; auto. intros c t E. eapply strip_last. exact E.
Qed.
