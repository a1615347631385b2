(* C22, C23: what remains in a sanitized tree. *)
From Coq Require Import Lia.
From Verif Require Import Str StrFacts SerializerModel UrlModel CssModel SanModel SanSpec SanFacts SanFuel SanProofs SanAttrProofs.
Open Scope N_scope.

Lemma fresh_All (R : node -> Prop) n : label_pred R -> All R n -> All R (fresh n).
Proof.
  intros L. induction n as [i name ns attrs ch tc H1 H2 | i d | i d | i d | i d | i name ch H1] using node_ind2; intros H; cbn [fresh].
  - apply All_El_inv in H. destruct H as (Hn & Hc & Ht). apply All_El.
    + eapply (lp_el _ L). exact Hn.
    + apply Forall_map. rewrite Forall_forall in *. auto.
    + intros l El_. destruct tc as [l0|]; [|discriminate El_]. cbn [option_map] in El_. injection El_ as <-. specialize (H2 _ eq_refl). specialize (Ht _ eq_refl).
      apply Forall_map. rewrite Forall_forall in *. auto.
  - apply All_leaf; [exact I|apply (lp_tx _ L)].
  - apply All_leaf; [exact I|]. apply (lp_info _ L _ (Cm i d)). apply All_self. exact H.
  - apply All_leaf; [exact I|]. apply (lp_info _ L _ (Pi i d)). apply All_self. exact H.
  - apply All_leaf; [exact I|]. apply (lp_info _ L _ (Dt i d)). apply All_self. exact H.
  - apply All_Fr_inv in H. destruct H as (Hn & Hc). apply All_Fr.
    + eapply (lp_fr _ L). exact Hn.
    + apply Forall_map. rewrite Forall_forall in *. auto.
Qed.
Lemma fresh_mark0 n : All mark0 (fresh n).
Proof.
  induction n as [i name ns attrs ch tc H1 H2 | i d | i d | i d | i d | i name ch H1] using node_ind2; cbn [fresh].
  - apply All_El; [right; reflexivity|apply Forall_map; exact H1|]. intros l El_. destruct tc as [l0|]; [|discriminate El_]. cbn [option_map] in El_. injection El_ as <-.
    apply Forall_map. exact (H2 _ eq_refl).
  - apply All_leaf; [exact I|right; reflexivity].
  - apply All_leaf; [exact I|right; reflexivity].
  - apply All_leaf; [exact I|right; reflexivity].
  - apply All_leaf; [exact I|right; reflexivity].
  - apply All_Fr; [right; reflexivity|apply Forall_map; exact H1].
Qed.

Lemma mapM_Ok {A B} (f : A -> res B) l l' fs : mapM f l = Ok l' fs -> Forall2 (fun a b => exists gs, f a = Ok b gs) l l'.
Proof.
  revert l' fs. induction l as [|a l IH]; intros l' fs H.
  - cbn in H. injection H as <- _. constructor.
  - cbn [mapM] in H. apply bind_Ok in H. destruct H as (b & g1 & g2 & H1 & H & _). apply bind_Ok in H. destruct H as (bs & g3 & g4 & H2 & H & _).
    injection H as <- _. constructor; [eauto|]. eapply IH. exact H2.
Qed.
Lemma harden_children_tx name ch ch' fs : harden_children name ch = Ok ch' fs -> Forall is_tx ch'.
Proof.
  unfold harden_children. intros H. apply bind_Ok in H. destruct H as (? & ? & ? & _ & H & _).
  assert (T : Forall is_tx (filter is_text ch)).
  { apply Forall_forall. intros y Hy. apply filter_In in Hy. destruct Hy as [_ Hy]. destruct y; try discriminate Hy. exact I. }
  destruct (filter is_text ch) as [|first more]; [injection H as <- _; constructor|].
  destruct (neutralize_opt _ name) as [[text changed]|]; [|discriminate H].
  apply bind_Ok in H. destruct H as (kept & ? & ? & Hk & H & _).
  assert (Tk : Forall is_tx kept).
  { destruct changed; [|injection Hk as <- _; exact T]. destruct text; injection Hk as <- _; repeat constructor. }
  match type of H with (if ?c then _ else _) = _ => destruct c end; injection H as <- _; [constructor|exact Tk].
Qed.
Lemma harden_All (R : node -> Prop) n n' fs : label_pred R -> All R n -> harden n = Ok n' fs -> All R n'.
Proof.
  intros L. revert n' fs. induction n as [i name ns attrs ch tc H1 H2 | i d | i d | i d | i d | i name ch H1] using node_ind2; intros n' fs H E; cbn [harden] in E;
    try (injection E as <- _; exact H).
  - apply All_El_inv in H. destruct H as (Hn & Hc & Ht).
    assert (G : forall l l' gs, Forall (fun n => forall n' fs, All R n -> harden n = Ok n' fs -> All R n') l -> Forall (All R) l -> mapM harden l = Ok l' gs -> Forall (All R) l').
    { intros l l' gs A B C. apply mapM_Ok in C. induction C as [|a b la lb [g Hg] C IH]; [constructor|].
      apply Forall_cons_iff in A. apply Forall_cons_iff in B. destruct A as [A1 A2], B as [B1 B2]. constructor; [eapply A1; eassumption|apply IH; assumption]. }
    destruct (in_strs (lower name) _).
    + destruct ch as [|c0 ch].
      { assert (n' = El i name ns attrs [] tc) as -> by congruence. apply All_El; assumption. }
      apply bind_Ok in E. destruct E as (ch' & ? & ? & E & Q & _). assert (n' = El i name ns attrs ch' tc) as -> by congruence.
      apply All_El; [eapply (lp_el _ L); exact Hn| |exact Ht]. apply All_tx; [exact L|]. eapply harden_children_tx. exact E.
    + apply bind_Ok in E. destruct E as (tc' & ? & ? & E1 & E & _). apply bind_Ok in E. destruct E as (ch' & ? & ? & E2 & E & _).
      assert (n' = El i name ns attrs ch' tc') as -> by congruence. apply All_El; [eapply (lp_el _ L); exact Hn| |].
      * eapply G; eassumption.
      * intros l ->. destruct tc as [l0|]; [|discriminate E1]. apply bind_Ok in E1. destruct E1 as (l' & ? & ? & E1 & Q & _). assert (l = l') as -> by congruence.
        eapply G; [exact (H2 _ eq_refl)|exact (Ht _ eq_refl)|exact E1].
  - apply All_Fr_inv in H. destruct H as (Hn & Hc). apply bind_Ok in E. destruct E as (ch' & ? & ? & E & Q & _). assert (n' = Fr i name ch') as -> by congruence.
    apply All_Fr; [eapply (lp_fr _ L); exact Hn|]. apply mapM_Ok in E. clear - E H1 Hc.
    induction E as [|a b la lb [g Hg] C IH]; [constructor|].
    apply Forall_cons_iff in H1. apply Forall_cons_iff in Hc. destruct H1 as [A1 A2], Hc as [B1 B2]. constructor; [eapply A1; eassumption|apply IH; assumption].
Qed.

Section Tree.
Variable py : urllib.
Variable p : policy.
Variables K R : node -> Prop.
Hypothesis LK : label_pred K.
Hypothesis LR : label_pred R.
Hypothesis RFr : forall i name ch, R (Fr i name ch).
Hypothesis Hstay : forall n nf n' fs, top_ok p n -> K n -> (foreign_here n = true -> nf = true) ->
  run py p (mark (info_of n)) (skipn (mark (info_of n)) (pipeline p)) nf n = Ok (Stay n') fs -> R n'.

Lemma apply_children_inv doc ch out fs : apply_children py p doc ch = Ok out fs -> Forall (All K) ch -> Forall (All R) out.
Proof.
  intros H HK. unfold apply_children in H. apply bind_Ok in H. destruct H as (o & ? & ? & Hw & H & _).
  assert (Ho : Forall (All R) o).
  { apply walk_Walks in Hw. eapply (walks_inv py p K R LK LR Hstay); [exact Hw| | |constructor].
    - apply Forall_map. apply Forall_forall. intros y _. apply mark0_top. apply fresh_mark0.
    - apply Forall_map. eapply Forall_impl; [|exact HK]. intros n Hn. apply fresh_All; assumption. }
  assert (Hf : Forall (All R) (map fresh o)).
  { apply Forall_map. eapply Forall_impl; [|exact Ho]. intros n Hn. apply fresh_All; assumption. }
  destruct (existsb _ _); [|injection H as <- _; exact Hf].
  apply mapM_Ok in H. clear Ho Hw. revert out H. induction (map fresh o) as [|a l IH]; intros out H; inversion H as [|? b ? lb [g Hg] Hr]; subst; [constructor|].
  apply Forall_cons_iff in Hf. destruct Hf as [A B]. constructor; [|apply IH; assumption]. eapply harden_All; eassumption.
Qed.
Lemma apply_inv n out fs : apply_policy_to_root py p n = Ok out fs -> All K n -> All R out.
Proof.
  intros H HK.
  assert (G : bind (apply_children py p false [n]) (fun ch' => match ch' with [only] => Ok only [] | _ => Ok (Fr no_info (u "#document-fragment") ch') [] end) = Ok out fs -> All R out).
  { intros Q. apply bind_Ok in Q. destruct Q as (ch' & ? & ? & Q & Q2 & _). apply apply_children_inv in Q; [|constructor; [exact HK|constructor]].
    destruct ch' as [|c [|c2 r]].
    - assert (out = Fr no_info (u "#document-fragment") []) as -> by congruence. apply All_Fr; auto.
    - assert (out = c) as -> by congruence. apply Forall_cons_iff in Q. apply Q.
    - assert (out = Fr no_info (u "#document-fragment") (c :: c2 :: r)) as -> by congruence. apply All_Fr; auto. }
  destruct n as [i name ns attrs ch tc | i d | i d | i d | i d | i name ch]; try exact (G H).
  cbn [apply_policy_to_root] in H. apply bind_Ok in H. destruct H as (ch' & ? & ? & H & Q & _). assert (out = Fr i name ch') as -> by congruence.
  apply All_Fr_inv in HK. destruct HK as [_ HK]. apply apply_children_inv in H; [|exact HK]. apply All_Fr; auto.
Qed.
End Tree.

(* ---- C22 ---- *)
Section C22.
Variable py : urllib.
Variable p : policy.

Definition KNoDup (n : node) : Prop := match n with El _ _ _ attrs _ _ => NoDup (map fst attrs) | _ => True end.
Definition RAttrs (n : node) : Prop := match n with El _ name _ attrs _ _ => In (lower name) (allowed_tags p) /\ attrs_ok py p name attrs | _ => True end.
Lemma in_strs_In x l : in_strs x l = true <-> In x l.
Proof.
  unfold in_strs. rewrite existsb_exists. split.
  - intros (y & Hy & E). apply str_eqb_eq in E. subst. exact Hy.
  - intros H. exists x. split; [exact H|apply str_eqb_refl].
Qed.
Lemma sanitized_attrs n out fs : valid_policy p -> dict_tree n -> apply_policy_to_root py p n = Ok out fs -> All RAttrs out.
Proof.
  intros V D H. eapply (apply_inv py p KNoDup RAttrs); [| | | |exact H|].
  - split; intros; try exact I; [exact H0|]. destruct n0; exact H0.
  - split; intros; try exact I; [exact H0|]. destruct n0; exact H0.
  - intros; exact I.
  - intros m nf m' gs T Km Hf E. pose proof (run_shape py p _ _ _ _ _ _ E) as Sh. destruct m as [i name ns attrs ch tc | i d | i d | i d | i d | i name ch]; cbn [same_shape] in Sh.
    + destruct m' as [i' name' ns' attrs' ch' tc' | | | | | ]; cbn in Sh; try discriminate Sh. destruct Sh as (-> & -> & -> & -> & ->).
      cbn [info_of] in *. rewrite run_El in E. 2:{ pose proof (bound_le p). destruct T as [[[]|T] _]. cbn [info_of] in T. lia. }
      destruct (_ && nf). { match type of E with context [if ?b then GoneAll else Gone] => destruct b end; discriminate E. }
      unfold decide in E. destruct (in_strs (lower name') (allowed_tags p)) eqn:Ea.
      * split; [apply in_strs_In; exact Ea|]. apply bind_Ok in E. destruct E as (a & ? & ? & E & Q & _). assert (a = attrs') as -> by congruence.
        eapply final_attrs_ok; [exact V|exact Km|exact E].
      * destruct (in_strs (lower name') (drop_content_tags p)); [congruence|]. destruct (disallowed_tag_handling p); [destruct (hoisted 1 ch' tc')|destruct (escape_node 1 i' name' ns' attrs ch' tc')|]; congruence.
    + destruct m'; cbn in Sh; try discriminate Sh; exact I.
    + subst m'. exact I.
    + subst m'. exact I.
    + subst m'. exact I.
    + subst m'. exact I.
  - intros x Hx. destruct x; try exact I. cbn [KNoDup]. eapply D. exact Hx.
Qed.
End C22.
