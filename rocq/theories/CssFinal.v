(* The C21 statements, assembled. *)
From Coq Require Import Lia ZifyBool ZifyN ZifyNat.
From Verif Require Import Str StrFacts ListFacts UrlSpec CssSpec CssTokFacts UrlModel UrlProofs UrlHostProofs UrlListProofs CssModel CssProofs CssFunProofs CssCommentProofs.
Open Scope N_scope.

Lemma get_rule_In tag key l r : get_rule tag key l = Some r -> In (tag, key, r) l.
Proof.
  induction l as [|[[t k] r'] l IH]; cbn [get_rule]; [discriminate|]. destruct (str_eqb tag t && str_eqb key k) eqn:E; [|intros H; right; exact (IH H)].
  apply andb_prop in E. destruct E as [E1 E2]. apply str_eqb_eq in E1, E2. intros H. left. congruence.
Qed.
Lemma lookup_In p tag prop r : lookup_css_rule p tag prop = Some r -> exists t, (t = tag \/ t = [42]) /\ In (t, (u "style:" ++ prop)%list, r) (allow_rules p).
Proof.
  unfold lookup_css_rule. destruct (get_rule tag (u "style:" ++ prop)%list (allow_rules p)) as [r'|] eqn:E.
  - intros H. exists tag. split; [auto|]. apply get_rule_In. congruence.
  - intros H. exists [42]. split; [auto|]. exact (get_rule_In _ _ _ _ H).
Qed.
Lemma sanitized_no_semicolon py rule v ar px out : schemes_valid rule -> ~ In 59 v -> sanitize_prepared py rule (strip_invisible v) HAllow ar px = Keep out -> ~ In 59 out.
Proof.
  intros Hv H59 H. apply sanitize_kept in H. destruct H as (_ & _ & _ & Hk).
  assert (Hs : ~ In 59 (strip (strip_invisible v))) by (intros Hin; apply H59, strip_invisible_incl; exact (strip_incl _ _ _ Hin)).
  destruct Hk as [Hf _|r Hss _ _ Hin _|sch Hg Hin _ _ _ _|sch Hg Hin _ _|Hg _ _ _]; try exact Hs.
  destruct (valid_scheme_facts _ (Hv _ Hin)) as (_ & Hf & _). intros Hc. apply in_app_iff in Hc. destruct Hc as [Hc|[Hc|Hc]]; [|discriminate Hc|exact (Hs (normalize_incl _ _ Hc))].
  rewrite forallb_forall in Hf. specialize (Hf 59 Hc). discriminate Hf.
Qed.
Definition plain_policy (p : url_policy) : Prop :=
  (forall t k r, In (t, k, r) (allow_rules p) -> schemes_valid r /\ effective_handling p r = HAllow) /\
  (forall f tag attr v w, url_filter p = Some f -> f tag attr v = Some w -> ~ In 59 v -> ~ In 59 w).
Lemma names_plain_policy py allowed value tag p out : (forall pol, p = Some pol -> plain_policy pol) ->
  sanitize_inline_style py allowed value tag p = Keep out -> forall n, In n (declared out) -> In n allowed.
Proof.
  intros Hp. apply names_allowed. intros pol prop r raw s Ep El Es Hr. destruct (Hp pol Ep) as [H1 H2].
  destruct (lookup_In _ _ _ _ El) as (t & _ & Hin). destruct (H1 _ _ _ Hin) as [Hv Hh]. unfold the_san in Es. rewrite Hh in Es. unfold sanitize_url_value in Es.
  destruct (url_filter pol) as [f|] eqn:Ef.
  - destruct (f (lower tag) (u "style:" ++ prop)%list raw) as [w|] eqn:Ew; [|discriminate Es]. exact (sanitized_no_semicolon _ _ _ _ _ _ Hv (H2 f _ _ _ _ eq_refl Ew Hr) Es).
  - exact (sanitized_no_semicolon _ _ _ _ _ _ Hv Hr Es).
Qed.
(* the style functions of the output, policy with rules; the URL of a url() is one that the matching rule accepted *)
Lemma functions_with_rules py allowed value tag p out : contains (u "/*") value = false -> ~ In 304 value ->
  sanitize_inline_style py allowed value tag p = Keep out -> forall pre tk post, css_tokens out = (pre ++ tk :: post)%list ->
  match tk with
  | CUrl _ | CBadUrl => False
  | CFun n => ~ dangerous_function n /\
      (alow n = u "url" -> exists pol prop t rule raw s post', p = Some pol /\ In prop allowed /\ (t = lower tag \/ t = u "*") /\
         In (t, (u "style:" ++ prop)%list, rule) (allow_rules pol) /\
         sanitize_url_value py rule raw (lower tag) (u "style:" ++ prop)%list (effective_handling pol rule) (effective_allow_relative pol rule)
           (effective_proxy pol rule) (url_filter pol) = Keep s /\ post = CStr s :: post')
  | _ => True
  end.
Proof.
  intros Hc H304 H pre tk post E. destruct (functions_nocomment _ _ _ _ _ _ Hc H304 H pre tk post E) as [H1 H2].
  destruct tk as [ |n|n|n|n|n| |n| | |n| | | | | |n]; try exact I; [|exact (H1 I)|exact (H1 I)].
  destruct (H2 n eq_refl) as [H3 H4]. split; [exact H3|]. intros Hu. destruct (H4 Hu) as (pol & prop & rl & raw & s & post' & E1 & E2 & E3 & E4 & E5).
  destruct (lookup_In _ _ _ _ E3) as (t & Ht & Hin). exists pol, prop, t, rl, raw, s, post'. repeat split; auto.
Qed.
