(* C22: script and style elements, when the policy allows them. *)
From Coq Require Import Lia.
From Verif Require Import Str StrFacts RawTextSpec SerializerModel SerRawProofs UrlModel CssModel SanModel SanSpec SanFacts SanFuel SanProofs SanTreeProofs.
Open Scope N_scope.

Definition raw_safe (n : node) : Prop :=
  match n with El _ name _ _ ch _ => lower name = u "script" \/ lower name = u "style" -> safe_rawtext (lower name) ch | _ => True end.
Definition MAll (n : node) : Prop := forall x, inside_markup x n -> raw_safe x.
Lemma concat_nil_no_closes name : ~ closes name [].
Proof. intros (a & b & c & d & E & _). destruct a; discriminate E. Qed.
Lemma disallowed_nil b : disallowed_functions [] b = false.
Proof. destruct b; vm_compute; reflexivity. Qed.
Lemma harden_children_safe name ch out fs : name = u "script" \/ name = u "style" -> harden_children name ch = Ok out fs -> safe_rawtext name out.
Proof.
  intros Nm H. unfold harden_children in H. apply bind_Ok in H. destruct H as (t0 & f1 & f2 & _ & H & _).
  assert (Nil : safe_rawtext name []).
  { split; [intros c []|]. split; [apply concat_nil_no_closes|]. intros _. apply disallowed_nil. }
  destruct (filter is_text ch) as [|first more] eqn:Ef; [assert (out = []) as -> by congruence; exact Nil|].
  assert (Tx_ : forall c, In c (first :: more) -> exists i d, c = Tx i d).
  { intros c Hc. rewrite <- Ef in Hc. apply filter_In in Hc. destruct Hc as [_ Hc]. destruct c; try discriminate Hc. eauto. }
  destruct (neutralize_total name (List.concat (map text_data (first :: more)))) as (o & c & E & Ho & Hc); [destruct Nm as [-> | ->]; reflexivity|].
  cbv zeta in H. rewrite E in H.
  apply bind_Ok in H. destruct H as (kept & f3 & f4 & Hk & H & _).
  assert (K : (forall c, In c kept -> exists i d, c = Tx i d) /\ List.concat (map text_data_of kept) = o).
  { destruct c.
    - assert (kept = match o with [] => [] | _ => [Tx (info_of first) o] end) as -> by congruence. destruct o as [|x o]; [split; [intros c []|reflexivity]|].
      split; [intros c [<-|[]]; eauto|]. cbn [map text_data_of List.concat]. apply app_nil_r.
    - assert (kept = first :: more) as -> by congruence. split; [exact Tx_|]. destruct (Hc eq_refl) as [-> _]. reflexivity. }
  destruct K as [K1 K2].
  destruct (str_eqb name (u "style") && (match o with [] => false | _ => true end) && disallowed_functions o false) eqn:Ed.
  - assert (out = []) as -> by congruence. exact Nil.
  - assert (out = kept) as -> by congruence. split; [exact K1|]. rewrite K2. split; [exact Ho|]. intros Es. rewrite Es in Ed.
    change (str_eqb (u "style") (u "style")) with true in Ed. destruct o; [apply disallowed_nil|]. exact Ed.
Qed.
Lemma MAll_El i name ns attrs ch tc : raw_safe (El i name ns attrs ch tc) -> Forall MAll ch ->
  (lower name <> u "script" -> lower name <> u "style" -> forall l, tc = Some l -> Forall MAll l) -> MAll (El i name ns attrs ch tc).
Proof.
  intros H1 H2 H3 x Hx. inversion Hx; subst.
  - exact H1.
  - rewrite Forall_forall in H2. eapply H2; eassumption.
  - specialize (H3 ltac:(assumption) ltac:(assumption) _ eq_refl). rewrite Forall_forall in H3. eapply H3; eassumption.
Qed.
Lemma harden_safe n n' fs : harden n = Ok n' fs -> MAll n'.
Proof.
  revert n' fs. induction n as [i name ns attrs ch tc H1 H2 | i d | i d | i d | i d | i name ch H1] using node_ind2; intros n' fs E; cbn [harden] in E;
    try (injection E as <- _; intros x Hx; inversion Hx; subst; exact I).
  - assert (G : forall l l' gs, Forall (fun n => forall n' fs, harden n = Ok n' fs -> MAll n') l -> mapM harden l = Ok l' gs -> Forall MAll l').
    { intros l l' gs A C. apply mapM_Ok in C. induction C as [|a b la lb [g Hg] C IH]; [constructor|].
      apply Forall_cons_iff in A. destruct A as [A1 A2]. constructor; [eapply A1; eassumption|apply IH; assumption]. }
    destruct (in_strs (lower name) [u "script"; u "style"]) eqn:Es.
    + assert (Nm : lower name = u "script" \/ lower name = u "style") by (apply in_strs_In in Es; cbn [In] in Es; intuition congruence).
      assert (Q : safe_rawtext (lower name) (match n' with El _ _ _ _ c _ => c | _ => [] end) /\ exists c, n' = El i name ns attrs c tc).
      { destruct ch as [|c0 ch].
        - assert (n' = El i name ns attrs [] tc) as -> by congruence. split; [|eauto]. split; [intros c []|]. split; [apply concat_nil_no_closes|intros _; apply disallowed_nil].
        - apply bind_Ok in E. destruct E as (ch' & ? & ? & E & Q & _). assert (n' = El i name ns attrs ch' tc) as -> by congruence. split; [|eauto].
          eapply harden_children_safe; eassumption. }
      destruct Q as (Q & c & ->). apply MAll_El.
      * intros _. exact Q.
      * apply Forall_forall. intros y Hy. destruct Q as [Q _]. destruct (Q y Hy) as (j & d & ->). intros x Hx. inversion Hx; subst. exact I.
      * intros A B. destruct Nm; contradiction.
    + apply bind_Ok in E. destruct E as (tc' & ? & ? & E1 & E & _). apply bind_Ok in E. destruct E as (ch' & ? & ? & E2 & E & _).
      assert (n' = El i name ns attrs ch' tc') as -> by congruence.
      apply MAll_El.
      * cbn [raw_safe]. intros Nm. exfalso. assert (in_strs (lower name) [u "script"; u "style"] = true) by (apply in_strs_In; cbn [In]; intuition). congruence.
      * eapply G; eassumption.
      * intros _ _ l ->. destruct tc as [l0|]; [|discriminate E1]. apply bind_Ok in E1. destruct E1 as (l' & ? & ? & E1 & Q & _). assert (l = l') as -> by congruence.
        eapply G; [exact (H2 _ eq_refl)|exact E1].
  - apply bind_Ok in E. destruct E as (ch' & ? & ? & E & Q & _). assert (n' = Fr i name ch') as -> by congruence.
    assert (F : Forall MAll ch').
    { apply mapM_Ok in E. clear Q. induction E as [|a b la lb [g Hg] C IH]; [constructor|]. apply Forall_cons_iff in H1. destruct H1 as [A1 A2]. constructor; [eapply A1; eassumption|apply IH; assumption]. }
    intros xx Hx. inversion Hx; subst; [exact I|]. rewrite Forall_forall in F. eapply F; eassumption.
Qed.
Section Raw.
Variable py : urllib.
Variable p : policy.
Lemma apply_children_safe doc ch out fs : In (u "script") (allowed_tags p) \/ In (u "style") (allowed_tags p) -> apply_children py p doc ch = Ok out fs -> Forall MAll out.
Proof.
  intros A H. unfold apply_children in H. apply bind_Ok in H. destruct H as (o & ? & ? & Hw & H & _).
  assert (E : existsb (fun t => in_strs t [u "script"; u "style"]) (allowed_tags p) = true).
  { apply existsb_exists. destruct A as [A|A]; [exists (u "script")|exists (u "style")]; split; auto; vm_compute; reflexivity. }
  rewrite E in H. apply mapM_Ok in H. induction H as [|a b la lb [g Hg] C IH]; constructor; [eapply harden_safe; exact Hg|exact IH].
Qed.
Lemma sanitized_rawtext n out fs : In (u "script") (allowed_tags p) \/ In (u "style") (allowed_tags p) -> apply_policy_to_root py p n = Ok out fs -> MAll out.
Proof.
  intros A H.
  assert (F : forall i name ch, Forall MAll ch -> MAll (Fr i name ch)).
  { intros i name ch F x Hx. inversion Hx; subst; [exact I|]. rewrite Forall_forall in F. eapply F; eassumption. }
  assert (G : bind (apply_children py p false [n]) (fun ch' => match ch' with [only] => Ok only [] | _ => Ok (Fr no_info (u "#document-fragment") ch') [] end) = Ok out fs -> MAll out).
  { intros Q. apply bind_Ok in Q. destruct Q as (ch' & ? & ? & Q & Q2 & _). apply apply_children_safe in Q; [|exact A].
    destruct ch' as [|c [|c2 r]].
    - assert (out = Fr no_info (u "#document-fragment") []) as -> by congruence. auto.
    - assert (out = c) as -> by congruence. apply Forall_cons_iff in Q. apply Q.
    - assert (out = Fr no_info (u "#document-fragment") (c :: c2 :: r)) as -> by congruence. auto. }
  destruct n as [i name ns attrs ch tc | i d | i d | i d | i d | i name ch]; try exact (G H).
  cbn [apply_policy_to_root] in H. apply bind_Ok in H. destruct H as (ch' & ? & ? & H & Q & _). assert (out = Fr i name ch') as -> by congruence.
  apply apply_children_safe in H; [|exact A]. auto.
Qed.
End Raw.
