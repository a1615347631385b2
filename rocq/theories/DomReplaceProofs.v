(* Proofs about replace_child. *)
From Verif Require Import Str SerializerModel SanModel DomModel DomSpec DomViewProofs DomProofs DomOpProofs.
From Coq Require Import Lia Relations.
Open Scope nat_scope.

Lemma replace_spec F h self new old : wf F h -> text_ok h -> frag_ok h -> new < hnext h -> self < hnext h -> okF F h new ->
  match replace_child h self new old with
  | Loop => False
  | Exn e h' => h' = h /\ ((e = AttributeError /\ vK h self = KText) \/ ((exists m, e = ValueError m) /\
                 (kids (cell_at h self) = None \/ ~ In old (kidl h self) \/ abv (vP h) new self)))
  | Ret r h' => r = old /\ ((new = old /\ In old (kidl h self) /\ h' = h) \/
                (new <> old /\ kids (cell_at h self) <> None /\ ~ abv (vP h) new self /\ wf F h' /\ frame h h' /\ replaced h h' self new old))
  end.
Proof.
  intros W TO FO Hn Hs HF. unfold replace_child. destruct (kind_eqb (kd (cell_at h self)) KText) eqn:ET.
  { split; [reflexivity|]. left. split; [reflexivity|]. apply kind_eqb_eq. exact ET. }
  apply kind_eqb_neq in ET. destruct (kids (cell_at h self)) as [l0|] eqn:EK.
  2: { split; [reflexivity|]. right. eauto. }
  assert (KN : kids (cell_at h self) <> None) by (rewrite EK; discriminate).
  assert (KL : kidl h self = l0) by (unfold kidl; rewrite EK; reflexivity).
  destruct (index_of old l0) as [index|] eqn:EI.
  2: { split; [reflexivity|]. right. split; [eauto|]. right. left. rewrite KL. apply index_of_None. exact EI. }
  assert (RI : In old (kidl h self)). { destruct (index_of_Some _ _ _ EI) as [a [b [Q _]]]. rewrite KL, Q. apply in_or_app; right; left; reflexivity. }
  destruct (new =? old) eqn:ER. { apply Nat.eqb_eq in ER. subst. auto. }
  apply Nat.eqb_neq in ER. 
  destruct (kind_eqb (kd (cell_at h new)) KFragment) eqn:EF.
  - apply kind_eqb_eq in EF.
    pose proof (insert_fragment_spec F h self new (Some old) W TO Hn Hs EF (FO _ Hn EF) KN ET HF ltac:(intros r' Q; injection Q as <-; exact RI)) as S.
    unfold rbind at 1. destruct (insert_fragment h self new (Some old)) as [t h2|e h2|]; [| |assumption].
    2: { destruct e; try contradiction. destruct S as [S1 S2]. split; [assumption|]. right. eauto 6. }
    destruct S as [S1 [S2 [S3 [S4 S5]]]]. unfold rbind. pose proof (remove_spec F h2 self old S2) as R.
    destruct S4 as [T1 [T2 [T3 [T4 [T5 T6]]]]]. unfold children in *.
    assert (ND : NoDup (kidl h self)) by apply (w_nd _ _ _ _ _ _ W).
    assert (ND2 : NoDup (kidl h2 self)) by apply (w_nd _ _ _ _ _ _ S2).
    destruct (in_split _ _ RI) as [a [b E1]].
    assert (NDo : ~ In old (a ++ b)). { rewrite E1 in ND. apply NoDup_remove_2 in ND. exact ND. }
    assert (PB : kidl h2 self = (a ++ kidl h new ++ old :: b)%list).
    { rewrite T1, E1. apply put_before_split. intros Q; apply NDo; apply in_or_app; left; exact Q. }
    assert (ON : ~ In old (kidl h new)).
    { intros Q. apply (w_cp _ _ _ _ _ _ W) in Q. apply (w_cp _ _ _ _ _ _ W) in RI. assert (new = self) by congruence. subst. apply S1. constructor. }
    assert (SN : self <> new) by (intros ->; apply S1; constructor).
    destruct (remove_child h2 self old) as [t2 h3|e h3|]; [| |assumption].
    2: { exfalso. destruct R as [_ [[_ R] | [_ R]]].
      - rewrite (vK_frame _ _ _ S3) in R. contradiction.
      - apply R. rewrite PB. rewrite !in_app_iff. right; right; left; reflexivity. }
    destruct R as [[R _] | [R1 [R2 [R3 [R4 [R5 R6]]]]]].
    { apply (fr_kids _ _ S3) in R. contradiction. }
    split; [reflexivity|]. right. split; [exact ER|]. split; [discriminate|]. split; [exact S1|]. split; [exact R2|].
    assert (Fr : frame h h3) by (eapply frame_trans; eassumption). split; [exact Fr|].
    split; [exact RI|]. split; [exact R5|]. left. split; [exact EF|]. unfold emptied, children. rewrite !R4.
    split; [|split; [|split; [|split; [|split]]]].
    + rewrite PB, E1. rewrite put_instead_split by (intros Q; apply NDo; apply in_or_app; auto).
      rewrite !remove_app, remove_self. rewrite !remove_notin; auto; intros Q; apply NDo; apply in_or_app; auto.
    + rewrite T2. reflexivity.
    + intros y Hy1 Hy2. rewrite R4, T3 by assumption. apply remove_notin. intros Q.
      apply (w_cp _ _ _ _ _ _ W) in Q. apply (w_cp _ _ _ _ _ _ W) in RI. congruence.
    + intros c Hc. change (vP h3 c = Some self). rewrite R6; [apply T4; exact Hc|]. intros ->. contradiction.
    + change (vP h3 new = None). rewrite R6 by assumption. exact T5.
    + apply frame_values. exact Fr.
  - apply kind_eqb_neq in EF. unfold rbind.
    pose proof (adopt_spec F h self new W Hn (fun _ => HF) (text_kidl _ TO)) as A.
    destruct (adopt_child h self new) as [o h1|e h1|]; [| |assumption].
    2: { destruct e; try contradiction. destruct A as [S1 S2]. split; [assumption|]. right. eauto 6. }
    rewrite <- KL in EI. destruct (shift_split F h h1 self new o old index W A ER EI) as [a [b [E1 [E2 [E3 E4]]]]].
    rewrite E1. assert (shift_index self o index <? List.length (a ++ old :: b) = true) as ->.
    { apply Nat.ltb_lt. rewrite app_length. cbn. lia. }
    rewrite <- E2, firstn_len, skipn_len_S.
    set (L := (a ++ new :: b)%list).
    split; [reflexivity|]. right. split; [exact ER|]. split; [discriminate|].
    pose proof (ad_above _ _ _ _ _ _ A) as NA. split; [exact NA|].
    pose proof (ad_wf _ _ _ _ _ _ A) as W1. pose proof (ad_frame _ _ _ _ _ _ A) as Fr1.
    assert (NEW : ~ In new (a ++ old :: b)). { rewrite <- E1, (ad_kids _ _ _ _ _ _ A), remove_in. tauto. }
    assert (ND1 : NoDup (a ++ old :: b)) by (rewrite <- E1; apply (w_nd _ _ _ _ _ _ W1)).
    destruct (link_views h1 self L new (Some self)) as [V1 [V2 [V3 V4]]].
    set (h2 := set_par (set_kids h1 self L) new (Some self)) in *.
    assert (Fr : frame h (set_par h2 old None)).
    { eapply frame_trans; [exact Fr1|]. eapply frame_trans; [|apply frame_set_par]. apply link_frame; [rewrite (fr_kids _ _ Fr1); assumption|rewrite (vK_frame _ _ _ Fr1); assumption]. }
    split; [|split; [exact Fr|]].
    + assert (WA : wfv F (hnext h1) (vK h1) (upd (vP h1) new (Some self)) (upd (kidl h1) self (a ++ [new] ++ old :: b)) (vT h1)).
      { apply wfv_attach; auto.
        - apply (ad_par _ _ _ _ _ _ A).
        - rewrite (vK_frame _ _ _ Fr1); assumption.
        - rewrite (fr_next _ _ Fr1); assumption.
        - rewrite (fr_next _ _ Fr1); assumption.
        - eapply abv_other; [apply (ad_pars _ _ _ _ _ _ A)|exact NA].
        - apply NoDup_app3; [exact ND1|constructor; [intros []|constructor]|]. intros c [<- | []]. exact NEW.
        - intros c. rewrite E1. rewrite !in_app_iff. cbn. clear. firstorder auto. }
      assert (Po : upd (vP h1) new (Some self) old = Some self).
      { rewrite upd_other by congruence. apply (w_cp _ _ _ _ _ _ W1). rewrite E1. apply in_or_app; right; left; reflexivity. }
      assert (Ko : vK h1 old <> KFragment). { apply (w_nf _ _ _ _ _ _ W1 self). rewrite E1. apply in_or_app; right; left; reflexivity. }
      assert (NO : ~ In old (a ++ b)) by (apply NoDup_remove_2 in ND1; exact ND1).
      assert (NL : NoDup L).
      { unfold L. change (a ++ new :: b)%list with (a ++ [new] ++ b)%list. apply NoDup_app3; [apply NoDup_remove_1 in ND1; exact ND1|constructor; [intros []|constructor]|].
        intros c [<- | []] Q. apply NEW. rewrite in_app_iff in *. cbn. tauto. }
      eapply wf_of; [apply (wfv_detach _ _ _ _ _ _ old self L WA Po Ko NL)| | | | |].
      * intros c. rewrite upd_same. unfold L. rewrite !in_app_iff. cbn. split.
        -- intros Q. split; [clear -Q; tauto|]. intros ->. rewrite in_app_iff in NO. destruct Q as [Q | [Q | Q]]; [tauto|exact (ER Q)|tauto].
        -- intros [Q1 Q2]. tauto || (destruct Q1 as [Q1 | Q1]; [tauto|]; destruct Q1 as [Q1 | Q1]; [tauto|]; destruct Q1 as [Q1 | Q1]; [exfalso; apply Q2; symmetry; exact Q1|tauto]).
      * reflexivity.
      * intros x. rewrite vK_set_par. apply V1.
      * intros x. rewrite vP_set_par. unfold upd at 1 2. destruct (x =? old); [reflexivity|]. apply V2.
      * intros x. rewrite kidl_set_par, V3. unfold upd. destruct (x =? self); reflexivity.
      * intros x. rewrite vT_set_par. apply V4.
    + split; [exact RI|]. split; [change (vP (set_par h2 old None) old = None); rewrite vP_set_par; apply upd_same|]. right. split; [exact EF|].
      split; [|split; [|split; [|apply frame_values; exact Fr]]].
      * unfold children. rewrite kidl_set_par, V3, upd_same. rewrite removed_rem, <- (ad_kids _ _ _ _ _ _ A), E1.
        symmetry. apply put_instead_split; assumption.
      * intros y Hy. unfold children. rewrite kidl_set_par, V3, upd_other by assumption. rewrite removed_rem. apply (ad_kids _ _ _ _ _ _ A).
      * change (vP (set_par h2 old None) new = Some self). rewrite vP_set_par, upd_other by assumption. rewrite V2. apply upd_same.
Qed.
