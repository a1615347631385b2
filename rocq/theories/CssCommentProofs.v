(* Style values with comments but without quotes: the scan of the code and the CSS tokenizer agree on what a comment is. *)
From Coq Require Import Lia ZifyBool ZifyN ZifyNat Wf_nat.
From Verif Require Import Str StrFacts ListFacts CssSpec CssTokFacts UrlModel UrlListProofs CssModel CssProofs CssFunProofs.
Open Scope N_scope.

Lemma ident_no_slash x : forallb ident_char x = true -> ~ In 47 x.
Proof. intros H Hin. rewrite forallb_forall in H. specialize (H 47 Hin). discriminate H. Qed.
Lemma pred_no_slash (p : N -> bool) x : p 47 = false -> forallb p x = true -> ~ In 47 x.
Proof. intros Hp H Hin. rewrite forallb_forall in H. specialize (H 47 Hin). congruence. Qed.
Lemma step_compact c t o r cc : ~ In 92 (c :: t) -> ~ In 34 (c :: t) -> ~ In 39 (c :: t) -> compact (c :: t) = Some cc -> ~ infix (u "url(") cc ->
  step c t o r -> exists pre cr, cc = (pre ++ cr)%list /\ compact r = Some cr.
Proof.
  intros Hb Hdq Hsq Hc Hu H.
  assert (Plain : forall x r, c :: t = (x ++ r)%list -> ~ In 47 x -> exists pre cr, cc = (pre ++ cr)%list /\ compact r = Some cr).
  { intros x r0 E Hx. rewrite E, compact_noslash in Hc by exact Hx. destruct (compact r0) as [cr|]; [|discriminate Hc]. exists (fm x), cr. split; [cbn in Hc; congruence|reflexivity]. }
  inversion H as [Hs|Hw|tk r' Hq E|Hw Hn|n r' Hw E1 E2 E3|tk n t' r' E0 E1 E2 E3 E4 E5|E|E|tk r' Ha Hm Hk|E|E|E|E|E]; subst o.
  - exists [], cc. split; [reflexivity|]. exact (compact_comment c t cc Hs Hc).
  - apply (Plain (c :: take_while css_ws t)); [cbn [app]; rewrite <- drop_while_app; reflexivity|]. intros [Hin|Hin]; [subst c; discriminate Hw|].
    exact (pred_no_slash css_ws _ eq_refl (take_while_all css_ws t) Hin).
  - exfalso. destruct Hq as [-> | ->]; [apply Hdq|apply Hsq]; left; reflexivity.
  - apply (Plain (take_while ident_char (c :: t))); [apply drop_while_app|]. apply ident_no_slash, take_while_all.
  - subst r'. apply (Plain (n ++ [40])%list); [rewrite E1, <- app_assoc; reflexivity|]. intros Hin. apply in_app_or in Hin. destruct Hin as [Hin|[Hin|[]]]; [|discriminate Hin].
    revert Hin. rewrite E2. apply ident_no_slash, take_while_all.
  - exfalso. apply Hu. assert (Hx : ~ In 47 (n ++ [40])%list).
    { intros Hin. apply in_app_or in Hin. destruct Hin as [Hin|[Hin|[]]]; [|discriminate Hin]. revert Hin. rewrite E2. apply ident_no_slash, take_while_all. }
    replace (c :: t) with ((n ++ [40]) ++ t')%list in Hc by (rewrite E1, <- app_assoc; reflexivity). rewrite compact_noslash in Hc by exact Hx.
    destruct (compact t') as [ct|]; [|discriminate Hc]. cbn in Hc. assert (Ec : cc = (fm (n ++ [40]) ++ ct)%list) by congruence.
    exists [], ct. rewrite Ec. rewrite fm_id; [rewrite alow_app, E3; reflexivity|]. apply fun_char_keep. apply alow_fun_char. rewrite E3. reflexivity.
  - apply (Plain (c :: take_while ident_char t)); [cbn [app]; rewrite <- drop_while_app; reflexivity|]. intros [Hin|Hin]; [lia|]. exact (ident_no_slash _ (take_while_all ident_char t) Hin).
  - apply (Plain (c :: take_while ident_char t)); [cbn [app]; rewrite <- drop_while_app; reflexivity|]. intros [Hin|Hin]; [lia|]. exact (ident_no_slash _ (take_while_all ident_char t) Hin).
  - subst r'. destruct Ha as (x & Ex & Hx). apply (Plain x r Ex). exact (pred_no_slash wordish x eq_refl Hx).
  - subst r. apply (Plain [c] t eq_refl). intros [Hin|[]]. lia.
  - subst r. apply (Plain [c] t eq_refl). intros [Hin|[]]. lia.
  - apply starts_spec in E. destruct E as [x Ex]. apply (Plain (c :: firstn 2 t)); [cbn [app]; rewrite firstn_skipn; reflexivity|]. cbn in Ex. assert (c = 45 /\ t = 45 :: 62 :: x) as [-> ->] by (split; congruence). cbn; lia.
  - apply starts_spec in E. destruct E as [x Ex]. apply (Plain (c :: firstn 3 t)); [cbn [app]; rewrite firstn_skipn; reflexivity|]. cbn in Ex. assert (c = 60 /\ t = 33 :: 45 :: 45 :: x) as [-> ->] by (split; congruence). cbn; lia.
  - subst r. destruct (N.eq_dec c 47) as [->|Hne].
    + unfold compact in Hc. cbn [compact_go] in Hc.
      assert (Hcond : (47 =? 47) && match match t with [] => None | d :: _ => Some d end with Some d => d =? 42 | None => false end = false).
      { change (47 =? 47) with true. cbn [andb]. destruct t as [|d t]; [reflexivity|]. destruct (N.eqb_spec d 42) as [->|_]; [discriminate E|reflexivity]. }
      rewrite Hcond in Hc. change ((47 <=? 32) || (47 =? 127)) with false in Hc. cbv iota in Hc. fold (compact t) in Hc. destruct (compact t) as [ct|]; [|discriminate Hc].
      exists [alow_c 47], ct. split; [cbn in Hc; cbn; congruence|reflexivity].
    + apply (Plain [c] t eq_refl). intros [Hin|[]]. congruence.
Qed.
Lemma infix_pre (n a b : str) : ~ infix n (a ++ b)%list -> ~ infix n b.
Proof. intros H Hb. apply H. apply infix_app_r; exact Hb. Qed.
Lemma reaches_compact s s' : reaches s s' -> forall cc, ~ In 92 s -> ~ In 34 s -> ~ In 39 s -> compact s = Some cc -> ~ infix (u "url(") cc ->
  exists pre cr, cc = (pre ++ cr)%list /\ compact s' = Some cr /\ ~ infix (u "url(") cr.
Proof.
  induction 1 as [s|c t o r s H Hr IH]; intros cc Hb Hdq Hsq Hc Hu; [exists [], cc; auto|].
  destruct (step_compact _ _ _ _ _ Hb Hdq Hsq Hc Hu H) as (pre & cr & -> & Hc'). destruct (step_suffix _ _ _ _ Hb H) as [Hs _].
  destruct (IH cr (suffix_In _ _ _ Hs Hb) (suffix_In _ _ _ Hs Hdq) (suffix_In _ _ _ Hs Hsq) Hc' (infix_pre _ _ _ Hu)) as (pre' & cr' & -> & H1 & H2).
  exists (pre ++ pre')%list, cr'. rewrite <- app_assoc. auto.
Qed.

(* the scan of the whole output *)
Lemma valid_prop_fm prop : valid_property_name prop = true -> fm prop = prop /\ ~ In 47 prop.
Proof.
  intros H. split; [|exact (valid_char_not prop 47 H eq_refl)]. destruct (valid_name_chars _ H) as [_ Hc]. rewrite fm_id; [exact (valid_alow _ Hc)|].
  apply (forallb_impl valid_property_char); [|exact Hc]. intros c. unfold valid_property_char, keepc, is_lower_ascii, is_digit_ascii. lia.
Qed.
Lemma good_none py tag prop decl v : good py None tag prop decl v -> infix v decl /\ disallowed_functions v false = false.
Proof. intros H. inversion H; subst; [auto|discriminate]. Qed.
Lemma parts_compact py allowed tag value l : parts py allowed None tag value l -> exists cc, compact (join (u "; ") l) = Some cc /\
  forall n, ~ In 59 n -> ~ In 58 n -> In 40 n -> infix n cc -> exists v cv, compact v = Some cv /\ disallowed_functions v false = false /\ infix n cv.
Proof.
  induction 1 as [|decl prop v l H1 H2 H3 H4 H5 IH].
  - exists []. split; [reflexivity|]. intros n _ _ H40 (a & b & E). exfalso. destruct a; [|discriminate E]. destruct n; [destruct H40|discriminate E].
  - destruct (good_none _ _ _ _ _ H4) as [Hi Hd]. destruct (allowed_value _ _ Hd) as (cv & Ecv & _). destruct (valid_prop_fm _ H2) as [Efm Hns].
    assert (Ep : compact (prop ++ u ": " ++ v)%list = Some (prop ++ 58 :: cv)%list).
    { change (prop ++ u ": " ++ v)%list with (prop ++ [58; 32] ++ v)%list. rewrite app_assoc, compact_noslash; [|intros Hin; apply in_app_or in Hin; destruct Hin as [Hin|[Hin|[Hin|[]]]]; [contradiction|discriminate Hin|discriminate Hin]].
      rewrite Ecv, fm_app, Efm. cbn [option_map]. rewrite <- app_assoc. reflexivity. }
    assert (Q : forall n, ~ In 58 n -> In 40 n -> infix n (prop ++ 58 :: cv)%list -> exists v cv, compact v = Some cv /\ disallowed_functions v false = false /\ infix n cv).
    { intros n N58 N40 Hin. apply infix_sep in Hin; [|exact N58]. destruct Hin as [Hin|Hin]; [exfalso; exact (valid_char_not prop 40 H2 eq_refl (infix_In _ _ _ Hin N40))|]. exists v, cv; auto. }
    destruct l as [|w l]; [exists (prop ++ 58 :: cv)%list; split; [exact Ep|intros n _; exact (Q n)]|].
    destruct IH as (cc & Ecc & Hcc). exists ((prop ++ 58 :: cv) ++ 59 :: cc)%list. split.
    + change (join (u "; ") ((prop ++ u ": " ++ v)%list :: w :: l)) with ((prop ++ u ": " ++ v) ++ [59; 32] ++ join (u "; ") (w :: l))%list.
      assert (Hn : forall t, ([59; 32] ++ join (u "; ") (w :: l))%list <> 42 :: t) by (intros t; discriminate). rewrite (compact_app _ _ _ Hn Ep). rewrite compact_noslash by (cbn; lia). rewrite Ecc. reflexivity.
    + intros n N59 N58 N40 Hin. apply infix_sep in Hin; [|exact N59]. destruct Hin as [Hin|Hin]; [exact (Q n N58 N40 Hin)|exact (Hcc n N59 N58 N40 Hin)].
Qed.
Lemma good_none_chars py allowed tag value l c : parts py allowed None tag value l -> ~ In c value -> ~ In c (u "; ") -> ~ In c (u ": ") -> valid_property_char c = false -> ~ In c (join (u "; ") l).
Proof.
  intros Hp Hv H1 H2 H3 Hin. apply join_In in Hin. destruct Hin as [Hin|(w & Hw & Hin)]; [contradiction|].
  destruct (parts_In _ _ _ _ _ _ _ Hp Hw) as (decl & prop & v & -> & Hd & Hvp & _ & Hg). destruct (good_none _ _ _ _ _ Hg) as [Hi _].
  apply in_app_or in Hin. destruct Hin as [Hin|Hin]; [exact (valid_char_not _ c Hvp H3 Hin)|]. apply in_app_or in Hin. destruct Hin as [Hin|Hin]; [contradiction|].
  apply Hv. exact (infix_In _ _ _ (split_char_infix _ _ _ Hd) (infix_In _ _ _ Hi Hin)).
Qed.
Lemma functions_noquote py allowed value tag out : ~ In 34 value -> ~ In 39 value ->
  sanitize_inline_style py allowed value tag None = Keep out -> forall tk, In tk (css_tokens out) ->
  ~ is_url_tok tk /\ forall n, tk = CFun n -> ~ dangerous_function n /\ alow n <> u "url".
Proof.
  intros Hdq Hsq H tk Htk. apply in_split in Htk. destruct Htk as (pre & post & E). pose proof (output_no_backslash _ _ _ _ _ _ H) as Hb.
  destruct (style_parts _ _ _ _ _ _ H) as (l & -> & Hl & Hp). destruct (token_origin _ _ _ _ Hb E) as (c & t & r & Hre & St & -> & Hsuf).
  assert (Hct : ~ In 92 (c :: t)) by exact (suffix_In _ _ _ Hsuf Hb).
  assert (Odq : ~ In 34 (join (u "; ") l)) by (apply (good_none_chars _ _ _ _ _ _ Hp Hdq); [cbn; lia|cbn; lia|reflexivity]).
  assert (Osq : ~ In 39 (join (u "; ") l)) by (apply (good_none_chars _ _ _ _ _ _ Hp Hsq); [cbn; lia|cbn; lia|reflexivity]).
  destruct (parts_compact _ _ _ _ _ Hp) as (cc & Ecc & Hcc).
  assert (Hu : ~ infix (u "url(") cc).
  { intros Hin. destruct (Hcc (u "url(")) as (v & cv & E1 & E2 & E3); [cbn; lia|cbn; lia|cbn; tauto|exact Hin|].
    destruct (allowed_value _ _ E2) as (c' & E4 & _ & E5). assert (c' = cv) as -> by congruence. apply contains_infix in E3. rewrite (E5 eq_refl) in E3. discriminate E3. }
  destruct (reaches_compact _ _ Hre cc Hb Odq Osq Ecc Hu) as (p1 & cr & Ec & Hcr & Hur).
  split.
  - intros Hk. destruct (step_url _ _ _ _ Hct Hk St) as (n & t' & E1 & E2 & E3). apply Hur.
    assert (Hf : forallb fun_char n = true) by (apply alow_fun_char; rewrite E2; reflexivity).
    assert (Hx : ~ In 47 (n ++ [40])%list) by (apply fun_char_no; [exact Hf|reflexivity|discriminate]).
    replace (c :: t) with ((n ++ [40]) ++ t')%list in Hcr by (rewrite E1, <- app_assoc; reflexivity). rewrite compact_noslash in Hcr by exact Hx.
    destruct (compact t') as [ct|]; [|discriminate Hcr]. cbn in Hcr. exists [], ct. assert (cr = (fm (n ++ [40]) ++ ct)%list) as -> by congruence. rewrite fm_id by exact (fun_char_keep n Hf). rewrite alow_app, E2. reflexivity.
  - intros n ->. destruct (step_fun _ _ _ _ Hct St) as (E1 & E2 & _).
    assert (G : forall n1 n2, n = (n1 ++ n2)%list -> forallb fun_char n2 = true -> infix (alow n2 ++ [40])%list cr).
    { intros n1 n2 En Hf. assert (Hx : ~ In 47 (n ++ [40])%list).
      { intros Hin. apply in_app_or in Hin. destruct Hin as [Hin|[Hin|[]]]; [|discriminate Hin]. revert Hin. rewrite E2. apply ident_no_slash, take_while_all. }
      replace (c :: t) with ((n ++ [40]) ++ r)%list in Hcr by (rewrite E1, <- app_assoc; reflexivity). rewrite compact_noslash in Hcr by exact Hx.
      destruct (compact r) as [ct|]; [|discriminate Hcr]. cbn in Hcr. assert (cr = (fm (n ++ [40]) ++ ct)%list) as -> by congruence.
      rewrite En, <- app_assoc, fm_app, (fm_id (n2 ++ [40])%list (fun_char_keep n2 Hf)), alow_app. exists (fm n1), ct. rewrite <- app_assoc. reflexivity. }
    split.
    + intros (d & Hd & pr & Ed). destruct (alow_split _ _ _ Ed) as (n1 & n2 & En & En2). destruct (dangerous_facts d Hd) as (Hblk & Hch & _).
      assert (Hf : forallb fun_char n2 = true) by (apply alow_fun_char; rewrite En2; exact Hch). pose proof (G n1 n2 En Hf) as Hin. rewrite En2 in Hin.
      assert (Hd' : forallb fun_char d = true) by (apply alow_fun_char; rewrite <- En2, alow_idem, En2; exact Hch).
      destruct (Hcc (d ++ [40])%list) as (v & cv & F1 & F2 & F3); try (apply fun_char_no; [exact Hd'|reflexivity|discriminate]); [apply in_or_app; right; left; reflexivity|rewrite Ec; apply infix_app_r; exact Hin|].
      destruct (allowed_value _ _ F2) as (c' & F4 & F5 & _). assert (c' = cv) as -> by congruence. apply contains_infix in F3. rewrite (F5 _ Hblk) in F3. discriminate F3.
    + intros Hn. apply Hur. assert (Hf : forallb fun_char n = true) by (apply alow_fun_char; rewrite Hn; reflexivity). pose proof (G [] n eq_refl Hf) as Hin. rewrite Hn in Hin. exact Hin.
Qed.
