(* C24: idempotence, on trees. *)
From Coq Require Import Lia.
From Verif Require Import Str StrFacts SerializerModel UrlModel UrlIdemProofs CssModel SanModel SanSpec SanFacts SanFuel SanProofs SanAttrProofs SanTreeProofs SanDropProofs SanContentProofs SanCleanProofs SanCleanFinal SanIdemProofs.
Open Scope N_scope.

Definition clean_text (n : node) : Prop := match n with Tx _ d => strip_invisible d = d | _ => True end.
Definition kids (P : node -> Prop) (n : node) : Prop :=
  match n with
  | El _ _ _ _ ch tc => Forall P ch /\ (forall l, tc = Some l -> Forall P l)
  | Fr _ _ ch => Forall P ch
  | _ => True
  end.
Definition top1 (n : node) : Prop := (mark (info_of n) <= 1)%nat /\ kids (All mark_zero) n.
Lemma zero_top1 n : All mark_zero n -> top1 n.
Proof.
  intros H. pose proof (All_self _ _ H) as H0. split; [unfold mark_zero in H0; lia|]. destruct n; try exact I; cbn [kids].
  - apply All_El_inv in H. destruct H as (_ & A & B). auto.
  - apply All_Fr_inv in H. apply H.
Qed.
Lemma mark1_top1 n : All mark_zero n -> top1 (mark_start 1 n).
Proof.
  intros H. apply zero_top1 in H. destruct H as [A B]. split; [|destruct n; exact B].
  unfold mark_start. destruct n; cbn [set_info info_of mark_info mark] in *; lia.
Qed.
Lemma top1_top p n : disallowed_tag_handling p <> TDrop -> top1 n -> top_ok p n.
Proof.
  intros Hd [A B]. unfold top_ok. split.
  - right. unfold bound. destruct (disallowed_tag_handling p); [exact A|exact A|congruence].
  - assert (G : forall l, Forall (All mark_zero) l -> Forall (All mark0) l).
    { intros l H. eapply Forall_impl; [|exact H]. intros x Hx y Hy. right. exact (Hx y Hy). }
    destruct n; try exact I; cbn [kids] in B.
    + destruct B as [B1 B2]. split; [apply G; exact B1|]. intros l El_. apply G. exact (B2 l El_).
    + apply G. exact B.
Qed.

Section IdemTree.
Variable py : urllib.
Variable p : policy.

Lemma no_esc n nf t fs : disallowed_tag_handling p <> TEscape -> top1 n ->
  run py p (mark (info_of n)) (skipn (mark (info_of n)) (pipeline p)) nf n = Ok (EscComment t) fs -> False.
Proof.
  intros Hne [T _] E. pose proof (run_shape py p _ _ _ _ _ _ E) as ((i & d & Hn) & _). rewrite (run_comment py p _ nf n i d T Hn) in E.
  destruct (pol_drop_comments p); [|discriminate E]. destruct (disallowed_tag_handling p); congruence.
Qed.

Lemma walks_clean_text doc ctx done pending out fs : pol_strip_invisible p = true -> disallowed_tag_handling p <> TEscape ->
  Walks py p doc ctx done pending out fs -> Forall top1 pending -> Forall (All clean_text) done -> Forall (All clean_text) out.
Proof.
  intros Hsi Hne H. induction H using Walks_ind2 with (P0 := fun ctx tc tc' fs _ => (forall l, tc = Some l -> Forall top1 l) -> forall l', tc' = Some l' -> Forall (All clean_text) l').
  all: try (intros T D; repeat match goal with H : Forall _ (_ :: _) |- _ => apply Forall_cons_iff in H; destruct H end).
  - exact D.
  - apply IHWalks; assumption.
  - exact D.
  - apply IHWalks; [|exact D]. assert (Tn : top1 n) by assumption. destruct Tn as [Tm Tk].
    destruct n as [i name ns attrs ch tc | i d | i d | i d | i d | i name ch]; cbn [info_of] in *.
    + rewrite run_El in e by exact Tm. destruct (_ && _); [match type of e with context [if ?b then GoneAll else Gone] => destruct b end; discriminate e|].
      unfold decide in e. destruct (in_strs (lower name) (allowed_tags p)).
      { apply bind_Ok in e. destruct e as (? & ? & ? & _ & Q & _). discriminate Q. }
      destruct (in_strs (lower name) (drop_content_tags p)); [discriminate e|]. destruct (disallowed_tag_handling p); [|congruence|discriminate e].
      destruct (hoisted 1 ch tc) as [|h hs] eqn:Eh; [discriminate e|]. assert (l = hoisted 1 ch tc) as -> by congruence. apply Forall_app. split; [|assumption].
      cbn [kids] in Tk. destruct Tk as [K1 K2]. unfold hoisted. apply Forall_map. apply Forall_app. split.
      * eapply Forall_impl; [|exact K1]. intros x Hx. apply mark1_top1. exact Hx.
      * destruct tc as [l0|]; [|constructor]. eapply Forall_impl; [|exact (K2 _ eq_refl)]. intros x Hx. apply mark1_top1. exact Hx.
    + destruct (run_text py p (mark i) (ctx || foreign_here (Tx i d)) i d) as (d1 & g & E & _). rewrite E in e. discriminate e.
    + rewrite (run_comment py p _ _ (Cm i d) i d) in e by auto. destruct (pol_drop_comments p); [destruct (disallowed_tag_handling p)|]; discriminate e.
    + rewrite (run_comment py p _ _ (Pi i d) i d) in e by auto. destruct (pol_drop_comments p); [destruct (disallowed_tag_handling p)|]; discriminate e.
    + rewrite run_doctype in e by auto. destruct (pol_drop_doctype p); discriminate e.
    + rewrite run_Fr in e. discriminate e.
  - exfalso. eapply no_esc; eassumption.
  - exfalso. eapply no_esc; eassumption.
  - exfalso. eapply no_esc; eassumption.
  - pose proof (run_shape py p _ _ _ _ _ _ e) as Sh.
    destruct n as [i0 name0 ns0 attrs0 ch0 tc0 | | | | | ]; cbn in Sh; try discriminate Sh. destruct Sh as (-> & -> & -> & -> & ->).
    match goal with H : top1 (El _ _ _ _ _ _) |- _ => destruct H as [_ [T1 T2]] end.
    assert (Z : forall l, Forall (All mark_zero) l -> Forall top1 l) by (intros l Hl; eapply Forall_impl; [|exact Hl]; exact zero_top1).
    apply IHWalks3; [assumption|]. apply Forall_app. split; [exact D|]. constructor; [|constructor]. apply All_El; [exact I| |].
    + apply IHWalks1; [apply Z; exact T1|constructor].
    + apply IHWalks2. intros l Hl. apply Z. exact (T2 l Hl).
  - pose proof (run_shape py p _ _ _ _ _ _ e) as Sh. destruct n; cbn in Sh; try discriminate Sh. injection Sh as -> -> ->.
    match goal with H : top1 (Fr _ _ _) |- _ => destruct H as [_ T1] end.
    assert (Z : forall l, Forall (All mark_zero) l -> Forall top1 l) by (intros l Hl; eapply Forall_impl; [|exact Hl]; exact zero_top1).
    apply IHWalks2; [assumption|]. apply Forall_app. split; [exact D|]. constructor; [|constructor]. apply All_Fr; [exact I|].
    apply IHWalks1; [apply Z; exact T1|constructor].
  - apply IHWalks; [assumption|]. apply Forall_app. split; [exact D|]. constructor; [|constructor]. apply All_leaf; [destruct n'; try contradiction; exact I|].
    pose proof (run_shape py p _ _ _ _ _ _ e) as Sh.
    destruct n as [i name ns attrs ch tc | i d | i d | i d | i d | i name ch]; destruct n' as [i' name' ns' attrs' ch' tc' | i' d' | i' d' | i' d' | i' d' | i' name' ch'];
      cbn in Sh; try discriminate Sh; try contradiction; try exact I.
    cbn [info_of] in e. match goal with H : top1 (Tx _ _) |- _ => destruct H as [Tm _] end. cbn [info_of] in Tm.
    destruct (run_text py p (mark i) (ctx || foreign_here (Tx i d)) i d) as (d1 & g & E & _ & G). destruct (G ltac:(lia)) as [G1 _]. rewrite Hsi in G1. rewrite E in e.
    cbn [clean_text]. assert (d' = d1) as -> by congruence. rewrite G1. apply strip_invisible_idem.
  - intros Q. discriminate Q.
  - intros Q. assert (l' = D) as -> by congruence. apply IHWalks; [apply T; reflexivity|constructor].
Qed.
Lemma clean_text_fresh n : All clean_text n -> All clean_text (fresh n).
Proof.
  induction n as [i name ns attrs ch tc H1 H2 | i d | i d | i d | i d | i name ch H1] using node_ind2; intros H; cbn [fresh];
    try (apply All_leaf; [exact I|]; apply All_self in H; exact H).
  - apply All_El_inv in H. destruct H as (Hn & Hc & Ht). apply All_El; [exact I| |].
    + apply Forall_map. rewrite Forall_forall in *. auto.
    + intros l El_. destruct tc as [l0|]; [|discriminate El_]. cbn [option_map] in El_. injection El_ as <-. specialize (H2 _ eq_refl). specialize (Ht _ eq_refl).
      apply Forall_map. rewrite Forall_forall in *. auto.
  - apply All_Fr_inv in H. destruct H as (Hn & Hc). apply All_Fr; [exact I|]. apply Forall_map. rewrite Forall_forall in *. auto.
Qed.
Hypothesis Hraw : no_rawtext p.
Lemma apply_children_clean_text doc l out fs : pol_strip_invisible p = true -> disallowed_tag_handling p <> TEscape -> apply_children py p doc l = Ok out fs -> Forall (All clean_text) out.
Proof.
  intros Hsi Hne H. unfold apply_children in H. apply bind_Ok in H. destruct H as (o & f1 & f2 & H1 & H2 & _). rewrite no_rawtext_b in H2 by exact Hraw.
  assert (out = map fresh o) as -> by congruence. apply walk_Walks in H1. apply walks_clean_text in H1; [|exact Hsi|exact Hne| |constructor].
  - apply Forall_map. eapply Forall_impl; [|exact H1]. exact clean_text_fresh.
  - apply Forall_map. apply Forall_forall. intros y _. apply zero_top1. apply fresh_mark_zero.
Qed.
Lemma apply_children_fresh doc l out fs : apply_children py p doc l = Ok out fs -> map fresh out = out.
Proof.
  intros H. unfold apply_children in H. apply bind_Ok in H. destruct H as (o & f1 & f2 & H1 & H2 & _). rewrite no_rawtext_b in H2 by exact Hraw.
  assert (out = map fresh o) as -> by congruence. rewrite map_map. apply map_ext. exact fresh_idem.
Qed.
(* the shape of the result *)
Lemma apply_shape n out fs : apply_policy_to_root py p n = Ok out fs -> exists doc l ch gs,
  apply_children py p doc l = Ok ch gs /\ ((exists i name, n = Fr i name l /\ out = Fr i name ch) \/ (l = [n] /\ (forall i name c, n <> Fr i name c) /\ (out = Fr no_info (u "#document-fragment") ch \/ ch = [out]))).
Proof.
  intros H.
  assert (G : (forall i name c, n <> Fr i name c) -> bind (apply_children py p false [n]) (fun ch' => match ch' with [only] => Ok only [] | _ => Ok (Fr no_info (u "#document-fragment") ch') [] end) = Ok out fs -> exists doc l ch gs,
  apply_children py p doc l = Ok ch gs /\ ((exists i name, n = Fr i name l /\ out = Fr i name ch) \/ (l = [n] /\ (forall i name c, n <> Fr i name c) /\ (out = Fr no_info (u "#document-fragment") ch \/ ch = [out])))).
  { intros Hn Q. apply bind_Ok in Q. destruct Q as (ch' & g1 & g2 & Q & Q2 & _). exists false, [n], ch', g1. split; [exact Q|]. right. split; [reflexivity|]. split; [exact Hn|].
    destruct ch' as [|c [|c2 r]]; [left; congruence|right; congruence|left; congruence]. }
  destruct n as [i name ns attrs ch tc | i d | i d | i d | i d | i name ch]; try (apply G; [discriminate|exact H]).
  cbn [apply_policy_to_root] in H. apply bind_Ok in H. destruct H as (ch' & g1 & g2 & H & Q & _). exists (str_eqb name (u "#document")), ch, ch', g1. split; [exact H|]. left. exists i, name. split; [reflexivity|congruence].
Qed.
Lemma apply_clean_text n out fs : pol_strip_invisible p = true -> disallowed_tag_handling p <> TEscape -> apply_policy_to_root py p n = Ok out fs -> All clean_text out.
Proof.
  intros Hsi Hne H. destruct (apply_shape n out fs H) as (doc & l & ch & gs & E & D). apply apply_children_clean_text in E; [|exact Hsi|exact Hne].
  destruct D as [(i & name & -> & ->)|(_ & _ & [->| ->])]; [apply All_Fr; [exact I|exact E]|apply All_Fr; [exact I|exact E]|]. apply Forall_cons_iff in E. apply E.
Qed.

Hypothesis Hv : valid_policy p.
Hypothesis Hd : dict_policy p.
Hypothesis Hs : stable_policy py p.

Definition RFixed (n : node) : Prop := match n with El _ name _ attrs _ _ => In (lower name) (allowed_tags p) /\ fixed py p name attrs | _ => True end.
Lemma sanitized_fixed n out fs : dict_tree n -> apply_policy_to_root py p n = Ok out fs -> All RFixed out.
Proof.
  intros D H. eapply (apply_inv py p KNoDup RFixed); [| | | |exact H|].
  - split; intros; try exact I; [exact H0|]. destruct n0; exact H0.
  - split; intros; try exact I; [exact H0|]. destruct n0; exact H0.
  - intros; exact I.
  - intros m nf m' gs T Km Hf E. pose proof (run_shape py p _ _ _ _ _ _ E) as Sh. destruct m as [i name ns attrs ch tc | i d | i d | i d | i d | i name ch]; cbn [same_shape] in Sh.
    + destruct m' as [i' name' ns' attrs' ch' tc' | | | | | ]; cbn in Sh; try discriminate Sh. destruct Sh as (-> & -> & -> & -> & ->).
      cbn [info_of] in *. rewrite run_El in E. 2:{ pose proof (bound_le p). destruct T as [[[]|T] _]. cbn [info_of] in T. lia. }
      destruct (_ && nf). { match type of E with context [if ?b then GoneAll else Gone] => destruct b end; discriminate E. }
      unfold decide in E. destruct (in_strs (lower name') (allowed_tags p)) eqn:Ea.
      * split; [apply in_strs_In; exact Ea|]. apply bind_Ok in E. destruct E as (a & ? & ? & E & Q & _). assert (a = attrs') as -> by congruence.
        eapply final_gives_fixed; [exact Hv|exact Hs|exact Hd|exact Km|exact E].
      * destruct (in_strs (lower name') (drop_content_tags p)); [discriminate E|]. destruct (disallowed_tag_handling p); [destruct (hoisted _ _ _)| destruct (escape_node _ _ _ _ _ _ _)|]; discriminate E.
    + destruct m'; cbn in Sh; try discriminate Sh; exact I.
    + destruct m'; cbn in Sh; try discriminate Sh; exact I.
    + destruct m'; cbn in Sh; try discriminate Sh; exact I.
    + destruct m'; cbn in Sh; try discriminate Sh; exact I.
    + destruct m'; cbn in Sh; try discriminate Sh; exact I.
  - intros x Hx. destruct x; try exact I. eapply D. exact Hx.
Qed.
Lemma keep_not_foreign n out fs : All not_foreign n -> apply_policy_to_root py p n = Ok out fs -> All not_foreign out.
Proof.
  intros D H. assert (LP : label_pred not_foreign). { split; intros; try exact I; [exact H0|]. destruct n0; exact H0. }
  eapply (apply_inv py p not_foreign not_foreign LP LP); [intros; exact I| |exact H|exact D].
  intros m nf m' gs T Km Hf E. pose proof (run_shape py p _ _ _ _ _ _ E) as Sh. destruct m as [i name ns attrs ch tc | | | | |]; destruct m'; cbn in Sh; try discriminate Sh; try exact I.
  destruct Sh as (-> & -> & -> & -> & ->). exact Km.
Qed.
Theorem idempotent n out fs : dict_tree n ->
  (disallowed_tag_handling p = TDrop \/ All not_foreign n) ->
  (disallowed_tag_handling p <> TEscape \/ pol_strip_invisible p = false) ->
  apply_policy_to_root py p n = Ok out fs -> apply_policy_to_root py p out = Ok out [].
Proof.
  intros D HF HE H.
  assert (Fx : All (fixed_node py p) out).
  { intros x Hx. pose proof (sanitized_fixed _ _ _ D H x Hx) as A.
    destruct x as [i name ns attrs ch tc | i d | i d | i d | i d | i name ch]; cbn [fixed_node].
    - destruct A as [A1 A2]. split; [exact A1|]. split; [|exact A2]. destruct HF as [HF|HF].
      + exact (no_foreign_drop _ _ _ _ _ HF H _ Hx).
      + exact (keep_not_foreign _ _ _ HF H _ Hx).
    - intros Es. destruct HE as [HE|HE]; [|congruence]. exact (apply_clean_text _ _ _ Es HE H _ Hx).
    - destruct (pol_drop_comments p) eqn:Ec; [|reflexivity]. destruct (no_comments _ _ _ _ _ Ec H _ Hx).
    - destruct (pol_drop_comments p) eqn:Ec; [|reflexivity]. destruct (no_comments _ _ _ _ _ Ec H _ Hx).
    - destruct (pol_drop_doctype p) eqn:Ec; [|reflexivity]. destruct (no_doctypes _ _ _ _ _ Ec H _ Hx).
    - exact I. }
  destruct (apply_shape n out fs H) as (doc & l & ch & gs & E & Sh). pose proof (apply_children_fresh _ _ _ _ E) as Fr_.
  assert (GF : forall i name, out = Fr i name ch -> apply_policy_to_root py p out = Ok out []).
  { intros i name ->. cbn [apply_policy_to_root]. apply All_Fr_inv in Fx. destruct Fx as [_ Fx]. rewrite (apply_children_fixed py p _ ch (or_introl Hraw) Fx Fr_). reflexivity. }
  destruct Sh as [(i & name & _ & Eo)|(_ & _ & [Eo|Ec])]; [exact (GF _ _ Eo)|exact (GF _ _ Eo)|].
  subst ch. cbn [map] in Fr_. apply apply_fixed; [left; exact Hraw|exact Fx|congruence].
Qed.
End IdemTree.
