(* Proofs about append_child, insert_before, replace_child, remove_child. *)
From Verif Require Import Str SerializerModel SanModel DomModel DomSpec DomViewProofs DomProofs.
From Coq Require Import Lia Relations.
Open Scope nat_scope.

Lemma removed_rem n l : removed n l = rem n l.
Proof. induction l as [|y t IH]; [reflexivity|]. cbn. destruct (Nat.eq_dec n y) as [-> | E].
  - rewrite Nat.eqb_refl. exact IH.
  - assert (y =? n = false) as -> by (apply Nat.eqb_neq; congruence). cbn. f_equal. exact IH.
Qed.
Lemma frame_label h h' x : frame h h' -> label_at h' x = label_at h x.
Proof.
  intros Fr. pose proof (fr_core _ _ Fr x) as C. unfold label_at. rewrite (fr_dict _ _ Fr).
  destruct (cell_at h' x), (cell_at h x). unfold core, with_par, with_kids in C; cbn in C. injection C as -> -> -> -> -> -> -> -> ->. reflexivity.
Qed.
Lemma frame_values h h' : frame h h' -> same_values h h'.
Proof.
  intros Fr. split; [apply (fr_next _ _ Fr)|]. split; [intros; apply frame_label; assumption|]. split; [|apply (fr_kids _ _ Fr)].
  intros x. unfold content. apply core_tcon. apply (fr_core _ _ Fr).
Qed.
Lemma vK_frame h h' x : frame h h' -> vK h' x = vK h x.
Proof. intros Fr. apply core_kd. apply (fr_core _ _ Fr). Qed.
Lemma vT_frame h h' x : frame h h' -> vT h' x = vT h x.
Proof. intros Fr. apply core_tcon. apply (fr_core _ _ Fr). Qed.
Lemma put_before_split r xs a b : ~ In r a -> put_before (Some r) xs (a ++ r :: b) = (a ++ xs ++ r :: b)%list.
Proof.
  induction a as [|y a IH]; intros H.
  - cbn. rewrite Nat.eqb_refl. reflexivity.
  - cbn. assert (y =? r = false) as -> by (apply Nat.eqb_neq; intros ->; apply H; left; reflexivity). f_equal. apply IH. intros Q; apply H; right; exact Q.
Qed.
Lemma put_instead_notin r xs a : ~ In r a -> put_instead r xs a = a.
Proof.
  induction a as [|y a IH]; intros H; [reflexivity|]. cbn.
  assert (y =? r = false) as -> by (apply Nat.eqb_neq; intros ->; apply H; left; reflexivity). cbn. f_equal. apply IH. intros Q; apply H; right; exact Q.
Qed.
Lemma put_instead_split r xs a b : ~ In r a -> ~ In r b -> put_instead r xs (a ++ r :: b) = (a ++ xs ++ b)%list.
Proof.
  intros Ha Hb. unfold put_instead. rewrite flat_map_app. cbn. rewrite Nat.eqb_refl.
  fold (put_instead r xs a). fold (put_instead r xs b). rewrite !put_instead_notin by assumption. reflexivity.
Qed.

Definition text_ok (h : heap) := forall x, vK h x = KText -> kids (cell_at h x) = Some [].
Lemma text_kidl h : text_ok h -> forall x, vK h x = KText -> kidl h x = [].
Proof. intros T x H. unfold kidl. rewrite (T x H). reflexivity. Qed.
Lemma text_frame h h' : frame h h' -> text_ok h -> text_ok h'.
Proof. intros Fr T x H. rewrite (vK_frame _ _ _ Fr) in H. rewrite (fr_text _ _ Fr x H). auto. Qed.

(* [okF F h n]: with F, n is not a template's content *)
Definition okF (F : Prop) (h : heap) (n : nat) := F -> forall x, vT h x <> Some n.

Lemma link_frame h s l n p : kids (cell_at h s) <> None -> vK h s <> KText -> frame h (set_par (set_kids h s l) n p).
Proof. intros H1 H2. eapply frame_trans; [apply frame_set_kids; [exact H1|exact H2]|apply frame_set_par]. Qed.
Lemma link_views h s l n p :
  (forall y, vK (set_par (set_kids h s l) n p) y = vK h y) /\ (forall y, vP (set_par (set_kids h s l) n p) y = upd (vP h) n p y) /\
  (forall y, kidl (set_par (set_kids h s l) n p) y = upd (kidl h) s l y) /\ (forall y, vT (set_par (set_kids h s l) n p) y = vT h y).
Proof.
  repeat split; intros y.
  - rewrite vK_set_par, vK_set_kids; reflexivity.
  - rewrite vP_set_par. unfold upd. destruct (y =? n); [reflexivity|apply vP_set_kids].
  - rewrite kidl_set_par. apply kidl_set_kids.
  - rewrite vT_set_par, vT_set_kids; reflexivity.
Qed.

(* attach after adoption *)
Lemma abv_other P P' n s : (forall y, y <> n -> P' y = P y) -> ~ abv P n s -> ~ abv P' n s.
Proof.
  intros E NA A. apply NA. clear NA. induction A; [constructor|].
  destruct (Nat.eq_dec x a) as [-> | D]; [constructor|]. eapply abv_up; [|apply IHA; assumption]. rewrite <- E; assumption.
Qed.
Lemma attach_spec F h h1 self node old l : wf F h -> node < hnext h -> self < hnext h -> vK h node <> KFragment ->
  kids (cell_at h self) <> None -> vK h self <> KText -> adopted F h h1 self node old ->
  NoDup l -> (forall c, In c l <-> In c (kidl h1 self) \/ c = node) ->
  let h' := set_par (set_kids h1 self l) node (Some self) in
  wf F h' /\ frame h h' /\ moved h h' self node l.
Proof.
  intros W Hn Hs Hk Hks Hkt A Hl Hin h'. destruct A as [A1 A2 A3 A4 A5 A6 A6c A7].
  assert (Fr : frame h h').
  { eapply frame_trans; [exact A2|]. apply link_frame; [rewrite (fr_kids _ _ A2); assumption|rewrite (vK_frame _ _ _ A2); assumption]. }
  destruct (link_views h1 self l node (Some self)) as [V1 [V2 [V3 V4]]].
  split; [|split; [exact Fr|]].
  - eapply wf_of; [apply (wfv_attach F _ _ _ _ _ node self l A3 A4)| | | | |]; auto.
    + rewrite (vK_frame _ _ _ A2); assumption.
    + rewrite (fr_next _ _ A2); assumption.
    + rewrite (fr_next _ _ A2); assumption.
    + eapply abv_other; eauto.
  - split; [unfold children; unfold h'; rewrite V3; apply upd_same|]. split.
    + intros y Hy. unfold children, h'. rewrite V3, upd_other by assumption. rewrite removed_rem. apply A6.
    + split; [|apply frame_values; exact Fr]. change (vP h' node = Some self). unfold h'. rewrite V2. apply upd_same.
Qed.

Lemma set_pars_views s l h :
  (forall y, vK (set_pars s l h) y = vK h y) /\ (forall y, vP (set_pars s l h) y = if existsb (Nat.eqb y) l then Some s else vP h y) /\
  (forall y, kidl (set_pars s l h) y = kidl h y) /\ (forall y, vT (set_pars s l h) y = vT h y) /\ frame h (set_pars s l h).
Proof.
  revert h. induction l as [|c l IH]; intros h.
  - cbn. repeat split; auto; try tauto.
  - unfold set_pars. cbn [fold_left]. fold (set_pars s l (set_par h c (Some s))).
    destruct (IH (set_par h c (Some s))) as [V1 [V2 [V3 [V4 V5]]]]. split; [|split; [|split; [|split]]]; try (intros y).
    + rewrite V1. apply vK_set_par.
    + rewrite V2. cbn [existsb]. rewrite vP_set_par. unfold upd. destruct (existsb (Nat.eqb y) l); [rewrite orb_true_r; reflexivity|].
      rewrite orb_false_r. destruct (y =? c); reflexivity.
    + rewrite V3. apply kidl_set_par.
    + rewrite V4. apply vT_set_par.
    + eapply frame_trans; [apply frame_set_par|exact V5].
Qed.

Lemma NoDup_app3 (a xs b : list nat) : NoDup (a ++ b) -> NoDup xs -> (forall c, In c xs -> ~ In c (a ++ b)) -> NoDup (a ++ xs ++ b).
Proof.
  intros H1 H2 H3. induction a as [|y a IH]; cbn [app] in *.
  - clear -H1 H2 H3. induction xs as [|y xs IH]; cbn [app]; [assumption|]. inversion H2; subst. constructor.
    + intros Q. apply in_app_or in Q. destruct Q; [contradiction|]. apply (H3 y); [left; reflexivity|assumption].
    + apply IH; [assumption|]. intros c Hc. apply H3. right; assumption.
  - inversion H1; subst. constructor.
    + intros Q. apply in_app_or in Q. destruct Q as [Q | Q]; [apply H4; apply in_or_app; left; assumption|].
      apply in_app_or in Q. destruct Q as [Q | Q]; [apply (H3 y Q); left; reflexivity|apply H4; apply in_or_app; right; assumption].
    + apply IH; [assumption|]. intros c Hc Q. apply (H3 c Hc). right; assumption.
Qed.

Lemma insert_fragment_spec F h self fr ref : wf F h -> text_ok h -> fr < hnext h -> self < hnext h -> vK h fr = KFragment -> kids (cell_at h fr) <> None ->
  kids (cell_at h self) <> None -> vK h self <> KText -> okF F h fr -> (forall r, ref = Some r -> In r (kidl h self)) ->
  match insert_fragment h self fr ref with
  | Loop => False
  | Exn (ValueError _) h' => h' = h /\ abv (vP h) fr self
  | Exn _ _ => False
  | Ret _ h' => ~ abv (vP h) fr self /\ wf F h' /\ frame h h' /\ emptied h h' self fr (put_before ref (kidl h fr) (kidl h self)) /\
                (forall r, ref = Some r -> vP h' r = Some self)
  end.
Proof.
  intros W TO Hf Hs Kf Kfk Ks Kt HF HR. unfold insert_fragment.
  pose proof (adopt_spec F h self fr W Hf (fun _ => HF) (text_kidl _ TO)) as A. unfold rbind.
  destruct (adopt_child h self fr) as [old h1|e h1|]; [|destruct e; assumption|assumption].
  destruct A as [A1 A2 A3 A4 A5 A6 A6c A7].
  assert (NI : forall q, ~ In fr (kidl h q)) by (intros q I; exact (w_nf _ _ _ _ _ _ W _ _ I Kf)).
  assert (KE : forall q, kidl h1 q = kidl h q) by (intros q; rewrite A6; apply remove_notin; apply NI).
  assert (SF : self <> fr) by (intros ->; apply A1; constructor).
  assert (IX : exists i, (match ref with None => Some (List.length (kidl h1 self)) | Some r => index_of r (kidl h1 self) end) = Some i /\
     splice_at i (kidl h1 fr) (kidl h1 self) = put_before ref (kidl h fr) (kidl h self) /\
     exists a b, kidl h self = a ++ b /\ put_before ref (kidl h fr) (kidl h self) = a ++ kidl h fr ++ b).
  { destruct ref as [r|].
    - specialize (HR r eq_refl). rewrite !KE. destruct (index_of r (kidl h self)) as [i|] eqn:EI; [|exfalso; exact (index_of_None _ _ EI HR)].
      exists i. destruct (index_of_Some _ _ _ EI) as [a [b [E1 [E2 E3]]]]. split; [reflexivity|].
      rewrite E1, put_before_split by assumption. unfold splice_at. subst i. rewrite firstn_len, skipn_len. split; [reflexivity|].
      exists a, (r :: b). auto.
    - exists (List.length (kidl h1 self)). split; [reflexivity|]. rewrite !KE. unfold splice_at. rewrite firstn_all, skipn_all. cbn [put_before]. rewrite app_nil_r.
      split; [reflexivity|]. exists (kidl h self), []. rewrite !app_nil_r. auto. }
  destruct IX as [i [-> [-> [a [b [EA EB]]]]]]. rewrite KE in *.
  set (L := put_before ref (kidl h fr) (kidl h self)) in *.
  set (h2 := set_kids h1 fr []). set (h3 := set_pars self (kidl h fr) h2).
  destruct (set_pars_views self (kidl h fr) h2) as [V1 [V2 [V3 [V4 V5]]]]. fold h3 in V1, V2, V3, V4, V5.
  assert (Fr2 : frame h1 h2). { apply frame_set_kids; [rewrite (fr_kids _ _ A2); exact Kfk|]. intros Q. change (vK h1 fr = KText) in Q. rewrite (vK_frame _ _ _ A2) in Q. congruence. }
  assert (Fr3 : frame h h3) by (eapply frame_trans; [exact A2|eapply frame_trans; eassumption]).
  assert (Fr : frame h (set_kids h3 self L)).
  { eapply frame_trans; [exact Fr3|]. apply frame_set_kids; [rewrite (fr_kids _ _ Fr3); exact Ks|]. intros Q. change (vK h3 self = KText) in Q. rewrite (vK_frame _ _ _ Fr3) in Q. contradiction. }
  assert (PE : forall y, vP (set_kids h3 self L) y = if existsb (Nat.eqb y) (kidl h fr) then Some self else vP h1 y).
  { intros y. rewrite vP_set_kids, V2. unfold h2. rewrite vP_set_kids. reflexivity. }
  assert (CE : forall y, kidl (set_kids h3 self L) y = upd (upd (kidl h) fr []) self L y).
  { intros y. rewrite kidl_set_kids. unfold upd at 1. unfold upd at 1. destruct (y =? self); [reflexivity|]. rewrite V3. unfold h2. rewrite kidl_set_kids.
    unfold upd. destruct (y =? fr); [reflexivity|]. apply KE. }
  assert (EBq : forall y, existsb (Nat.eqb y) (kidl h fr) = true <-> In y (kidl h fr)).
  { intros y. rewrite existsb_exists. split; [intros [z [H1 H2]]; apply Nat.eqb_eq in H2; subst; auto|intros H; exists y; rewrite Nat.eqb_refl; auto]. }
  assert (DJ : forall c, In c (kidl h fr) -> ~ In c (kidl h self)).
  { intros c H1 H2. apply (w_cp _ _ _ _ _ _ W) in H1. apply (w_cp _ _ _ _ _ _ W) in H2. congruence. }
  split; [exact A1|]. split; [|split; [exact Fr|split]].
  - eapply wf_of; [apply (wfv_splice F _ _ _ _ _ fr self L A3)| | | | |].
    + rewrite (fr_next _ _ A2). exact Hs.
    + exact SF.
    + eapply abv_other; eauto.
    + rewrite EB. apply NoDup_app3.
      * rewrite <- EA. apply (w_nd _ _ _ _ _ _ W).
      * apply (w_nd _ _ _ _ _ _ W).
      * intros c Hc. rewrite <- EA. apply DJ. exact Hc.
    + intros c. rewrite EB, !KE. rewrite EA. rewrite !in_app_iff. tauto.
    + rewrite (fr_next _ _ Fr). symmetry. apply (fr_next _ _ A2).
    + intros x. rewrite vK_set_kids, V1. unfold h2. apply vK_set_kids.
    + intros x. rewrite PE, KE. reflexivity.
    + intros x. rewrite CE. unfold upd. destruct (x =? self); [reflexivity|]. destruct (x =? fr); [reflexivity|]. symmetry. apply KE.
    + intros x. rewrite vT_set_kids, V4. unfold h2. apply vT_set_kids.
  - unfold emptied, children. rewrite !CE, upd_same, upd_other, upd_same by congruence. split; [reflexivity|]. split; [reflexivity|]. split; [|split; [|split]].
    + intros y Hy1 Hy2. rewrite CE, !upd_other by assumption. reflexivity.
    + intros c Hc. change (vP (set_kids h3 self L) c = Some self). rewrite PE. apply EBq in Hc. rewrite Hc. reflexivity.
    + change (vP (set_kids h3 self L) fr = None). rewrite PE. destruct (existsb (Nat.eqb fr) (kidl h fr)) eqn:Q; [apply EBq in Q; exfalso; exact (NI _ Q)|exact A4].
    + apply frame_values. exact Fr.
  - intros r Er. specialize (HR r Er). rewrite PE. destruct (existsb (Nat.eqb r) (kidl h fr)); [reflexivity|].
    rewrite A5; [apply (w_cp _ _ _ _ _ _ W); exact HR|]. intros ->. exact (NI _ HR).
Qed.

Definition frag_ok (h : heap) := forall x, x < hnext h -> vK h x = KFragment -> kids (cell_at h x) <> None.

Lemma not_text k : kind_eqb k KText = false -> k <> KText. Proof. apply kind_eqb_neq. Qed.

Definition effect (h h' : heap) (self node : nat) (ref : option nat) : Prop :=
  (is_fragment h node /\ emptied h h' self node (put_before ref (children h node) (children h self))) \/
  (~ is_fragment h node /\ moved h h' self node (put_before ref [node] (removed node (children h self)))).

Lemma append_spec F h self node : wf F h -> text_ok h -> frag_ok h -> node < hnext h -> self < hnext h -> okF F h node ->
  match append_child h self node with
  | Loop => False
  | Exn e h' => h' = h /\ ((e = AttributeError /\ vK h self = KText) \/ ((exists m, e = ValueError m) /\ abv (vP h) node self))
  | Ret _ h' => (kids (cell_at h self) = None /\ h' = h) \/
                (kids (cell_at h self) <> None /\ ~ abv (vP h) node self /\ wf F h' /\ frame h h' /\ effect h h' self node None)
  end.
Proof.
  intros W TO FO Hn Hs HF. unfold append_child. destruct (kind_eqb (kd (cell_at h self)) KText) eqn:ET.
  { split; [reflexivity|]. left. split; [reflexivity|]. apply kind_eqb_eq. exact ET. }
  apply kind_eqb_neq in ET. destruct (kids (cell_at h self)) as [l0|] eqn:EK; [|left; auto].
  assert (KN : kids (cell_at h self) <> None) by (rewrite EK; discriminate).
  destruct (kind_eqb (kd (cell_at h node)) KFragment) eqn:EF.
  - apply kind_eqb_eq in EF.
    pose proof (insert_fragment_spec F h self node None W TO Hn Hs EF (FO _ Hn EF) KN ET HF ltac:(intros r Q; discriminate Q)) as S.
    destruct (insert_fragment h self node None) as [t h'|e h'|]; [| |assumption].
    + destruct S as [S1 [S2 [S3 [S4 _]]]]. right. split; [discriminate|]. split; [exact S1|]. split; [exact S2|]. split; [exact S3|]. left. split; [exact EF|exact S4].
    + destruct e; try contradiction. destruct S as [S1 S2]. split; [assumption|]. right. eauto.
  - apply kind_eqb_neq in EF. unfold rbind.
    pose proof (adopt_spec F h self node W Hn (fun _ => HF) (text_kidl _ TO)) as A.
    destruct (adopt_child h self node) as [old h1|e h1|]; [| |assumption].
    2: { destruct e; try contradiction. destruct A as [S1 S2]. split; [assumption|]. right. eauto. }
    right. split; [discriminate|].
    assert (PB : put_before None [node] (removed node (children h self)) = (kidl h1 self ++ [node])%list).
    { cbn [put_before]. rewrite removed_rem. unfold children. rewrite (ad_kids _ _ _ _ _ _ A). reflexivity. }
    destruct (attach_spec F h h1 self node old (kidl h1 self ++ [node]) W Hn Hs EF KN ET A) as [S1 [S2 S3]].
    + rewrite <- (app_nil_r [node]). apply NoDup_app3; [rewrite app_nil_r; apply (w_nd _ _ _ _ _ _ (ad_wf _ _ _ _ _ _ A))|constructor; [intros []|constructor]|].
      intros c [<- | []]. rewrite app_nil_r, (ad_kids _ _ _ _ _ _ A). rewrite remove_in. tauto.
    + intros c. rewrite in_app_iff. cbn. split; [intros [?|[<-|[]]]; auto|intros [?| ->]; auto].
    + split; [apply (ad_above _ _ _ _ _ _ A)|]. split; [exact S1|]. split; [exact S2|]. right. split; [exact EF|]. rewrite PB. exact S3.
Qed.

(* the index after adoption *)
Lemma shift_split F h h1 self node old r index : wf F h -> adopted F h h1 self node old -> node <> r -> index_of r (kidl h self) = Some index ->
  exists a b, kidl h1 self = (a ++ r :: b)%list /\ List.length a = shift_index self old index /\ ~ In r a /\ ~ In r b.
Proof.
  intros W A NR EI. destruct (index_of_Some _ _ _ EI) as [a [b [E1 [E2 E3]]]].
  pose proof (w_nd _ _ _ _ _ _ W self) as ND. rewrite E1 in ND.
  assert (RB : ~ In r b). { apply NoDup_remove_2 in ND. intros Q; apply ND; apply in_or_app; right; exact Q. }
  exists (rem node a), (rem node b).
  assert (K1 : kidl h1 self = (rem node a ++ r :: rem node b)%list).
  { rewrite (ad_kids _ _ _ _ _ _ A), E1, remove_app, remove_head by congruence. reflexivity. }
  split; [exact K1|]. split; [|split; rewrite remove_in; tauto].
  assert (NOT : ~ In node (kidl h self) -> List.length (rem node a) = index).
  { intros H. rewrite E1 in H. rewrite remove_notin; [exact E2|]. intros Q; apply H; apply in_or_app; left; exact Q. }
  destruct (ad_old _ _ _ _ _ _ A) as [[p [i [-> Ei]]] | [Eo No]].
  - unfold shift_index. destruct (p =? self) eqn:EP; cbn [andb].
    + apply Nat.eqb_eq in EP. subst p. destruct (index_of_Some _ _ _ Ei) as [a' [b' [F1 [F2 F3]]]].
      destruct (i <? index) eqn:EL.
      * apply Nat.ltb_lt in EL. subst i index.
        (* node is in a *)
        assert (IN : In node a).
        { pose proof (nth_error_app1 a (r :: b) EL) as Q1. rewrite E1 in F1. rewrite F1 in Q1. rewrite nth_error_app2 in Q1 by lia. rewrite Nat.sub_diag in Q1. cbn in Q1.
          symmetry in Q1. eapply nth_error_In; exact Q1. }
        destruct (in_split _ _ IN) as [u1 [u2 U]].
        subst a. rewrite remove_app, remove_self.
        assert (NoDup (u1 ++ node :: u2)) as N2. { clear -ND. apply NoDup_remove_1 in ND. rewrite <- app_assoc in ND. 
          induction u1 as [|z u1 IH]; cbn [app] in *; inversion ND; subst; constructor; auto.
          - intros Q. apply H1. apply in_or_app. left; exact Q.
          - clear -H2. induction u2; cbn [app] in *; inversion H2; subst; constructor; auto. intros Q; apply H1; apply in_or_app; left; exact Q.
          - intros Q. apply H1. apply in_app_or in Q. apply in_or_app. destruct Q as [Q|[Q|Q]]; auto. 
            + right; left; exact Q.
            + right; right. apply in_or_app; left; exact Q. }
        apply NoDup_remove_2 in N2. rewrite !remove_notin by (intros Q; apply N2; apply in_or_app; auto). rewrite !app_length. cbn. lia.
      * apply Nat.ltb_ge in EL. subst i. rewrite remove_notin; [exact E2|]. intros IN. 
        destruct (in_split _ _ IN) as [u1 [u2 U]]. 
        assert (index_of node (kidl h self) = index_of node (kidl h self)) by reflexivity.
        subst a. rewrite E1 in F1. subst index. 
        assert (Q : nth_error (a' ++ node :: b') (List.length u1) = Some node).
        { rewrite <- F1, <- app_assoc, nth_error_app2, Nat.sub_diag by lia. reflexivity. }
        rewrite nth_error_app1 in Q by (rewrite app_length in EL; cbn in EL; lia). apply nth_error_In in Q. contradiction.
    + apply NOT. intros Q. apply Nat.eqb_neq in EP. apply (w_cp _ _ _ _ _ _ W) in Q.
      destruct (index_of_Some _ _ _ Ei) as [a' [b' [F1 _]]].
      assert (vP h node = Some p). { apply (w_cp _ _ _ _ _ _ W). rewrite F1. apply in_or_app; right; left; reflexivity. } congruence.
  - rewrite NOT by apply No. destruct old as [[?|] o]; cbn [snd] in Eo; subst; reflexivity.
Qed.

Lemma insert_spec F h self node ref : wf F h -> text_ok h -> frag_ok h -> node < hnext h -> self < hnext h -> okF F h node ->
  match insert_before h self node ref with
  | Loop => False
  | Exn e h' => h' = h /\ ((e = AttributeError /\ vK h self = KText) \/ ((exists m, e = ValueError m) /\
                 (kids (cell_at h self) = None \/ (exists r, ref = Some r /\ node <> r /\ ~ In r (kidl h self)) \/ abv (vP h) node self)))
  | Ret _ h' => (ref = Some node /\ h' = h) \/
                (kids (cell_at h self) <> None /\ (forall r, ref = Some r -> In r (kidl h self)) /\ ~ abv (vP h) node self /\ wf F h' /\ frame h h' /\ effect h h' self node ref)
  end.
Proof.
  intros W TO FO Hn Hs HF. unfold insert_before. destruct (kind_eqb (kd (cell_at h self)) KText) eqn:ET.
  { split; [reflexivity|]. left. split; [reflexivity|]. apply kind_eqb_eq. exact ET. }
  apply kind_eqb_neq in ET. destruct (kids (cell_at h self)) as [l0|] eqn:EK.
  2: { split; [reflexivity|]. right. eauto. }
  assert (KN : kids (cell_at h self) <> None) by (rewrite EK; discriminate).
  assert (KL : kidl h self = l0) by (unfold kidl; rewrite EK; reflexivity).
  destruct ref as [r|].
  2: { pose proof (append_spec F h self node W TO FO Hn Hs HF) as S. destruct (append_child h self node) as [t h'|e h'|]; [| |assumption].
    - destruct S as [[S1 S2] | [S1 [S2 [S3 [S4 S5]]]]]; [contradiction|]. right. split; [discriminate|]. split; [intros r Q; discriminate Q|]. auto.
    - destruct S as [S1 [S2 | [S2 S3]]]; split; auto. }
  destruct (node =? r) eqn:ER. { apply Nat.eqb_eq in ER. subst. left. auto. }
  apply Nat.eqb_neq in ER. destruct (index_of r l0) as [index|] eqn:EI.
  2: { split; [reflexivity|]. right. split; [eauto|]. right. left. exists r. rewrite KL. repeat split; auto. apply index_of_None. exact EI. }
  assert (RI : In r (kidl h self)). { destruct (index_of_Some _ _ _ EI) as [a [b [Q _]]]. rewrite KL, Q. apply in_or_app; right; left; reflexivity. }
  destruct (kind_eqb (kd (cell_at h node)) KFragment) eqn:EF.
  - apply kind_eqb_eq in EF.
    pose proof (insert_fragment_spec F h self node (Some r) W TO Hn Hs EF (FO _ Hn EF) KN ET HF ltac:(intros r' Q; injection Q as <-; exact RI)) as S.
    destruct (insert_fragment h self node (Some r)) as [t h'|e h'|]; [| |assumption].
    + destruct S as [S1 [S2 [S3 [S4 _]]]]. right. split; [discriminate|]. split; [intros r' Q; injection Q as <-; exact RI|]. split; [exact S1|]. split; [exact S2|]. split; [exact S3|]. left. split; [exact EF|exact S4].
    + destruct e; try contradiction. destruct S as [S1 S2]. split; [assumption|]. right. eauto 6.
  - apply kind_eqb_neq in EF. unfold rbind.
    pose proof (adopt_spec F h self node W Hn (fun _ => HF) (text_kidl _ TO)) as A.
    destruct (adopt_child h self node) as [old h1|e h1|]; [| |assumption].
    2: { destruct e; try contradiction. destruct A as [S1 S2]. split; [assumption|]. right. eauto 6. }
    right. split; [discriminate|]. split; [intros r' Q; injection Q as <-; exact RI|].
    rewrite <- KL in EI. destruct (shift_split F h h1 self node old r index W A ER EI) as [a [b [E1 [E2 [E3 E4]]]]].
    assert (SP : splice_at (shift_index self old index) [node] (kidl h1 self) = (a ++ [node] ++ r :: b)%list).
    { unfold splice_at. rewrite E1, <- E2, firstn_len, skipn_len. reflexivity. }
    rewrite SP.
    assert (PB : put_before (Some r) [node] (removed node (children h self)) = (a ++ [node] ++ r :: b)%list).
    { rewrite removed_rem. unfold children. rewrite <- (ad_kids _ _ _ _ _ _ A), E1. apply put_before_split. exact E3. }
    destruct (attach_spec F h h1 self node old (a ++ [node] ++ r :: b) W Hn Hs EF KN ET A) as [S1 [S2 S3]].
    + apply NoDup_app3; [rewrite <- E1; apply (w_nd _ _ _ _ _ _ (ad_wf _ _ _ _ _ _ A))|constructor; [intros []|constructor]|].
      intros c [<- | []]. rewrite <- E1, (ad_kids _ _ _ _ _ _ A). rewrite remove_in. tauto.
    + intros c. rewrite E1. rewrite !in_app_iff. cbn. clear. firstorder auto.
    + split; [apply (ad_above _ _ _ _ _ _ A)|]. split; [exact S1|]. split; [exact S2|]. right. split; [exact EF|]. rewrite PB. exact S3.
Qed.

Lemma remove_spec F h self node : wf F h -> 
  match remove_child h self node with
  | Loop => False
  | Exn e h' => h' = h /\ ((e = AttributeError /\ vK h self = KText) \/ ((exists m, e = ValueError m) /\ ~ In node (kidl h self)))
  | Ret _ h' => (kids (cell_at h self) = None /\ h' = h) \/
                (In node (kidl h self) /\ wf F h' /\ frame h h' /\ (forall y, kidl h' y = rem node (kidl h y)) /\ vP h' node = None /\
                 (forall y, y <> node -> vP h' y = vP h y))
  end.
Proof.
  intros W. unfold remove_child. destruct (kind_eqb (kd (cell_at h self)) KText) eqn:ET.
  { split; [reflexivity|]. left. split; [reflexivity|]. apply kind_eqb_eq. exact ET. }
  apply kind_eqb_neq in ET. destruct (kids (cell_at h self)) as [l|] eqn:EK; [|left; auto].
  assert (KN : kids (cell_at h self) <> None) by (rewrite EK; discriminate).
  assert (KL : kidl h self = l) by (unfold kidl; rewrite EK; reflexivity).
  destruct (index_of node l) as [i|] eqn:EI.
  2: { split; [reflexivity|]. right. split; [eauto|]. rewrite KL. apply index_of_None. exact EI. }
  assert (RI : In node (kidl h self)). { destruct (index_of_Some _ _ _ EI) as [a [b [Q _]]]. rewrite KL, Q. apply in_or_app; right; left; reflexivity. }
  right. split; [exact RI|]. pose proof (w_nd _ _ _ _ _ _ W self) as ND. rewrite KL in ND. rewrite (pop_index _ _ _ ND EI).
  pose proof (w_cp _ _ _ _ _ _ W _ _ RI) as EP. pose proof (w_nf _ _ _ _ _ _ W _ _ RI) as FR.
  destruct (link_views h self (rem node l) node None) as [V1 [V2 [V3 V4]]].
  split; [|split; [apply link_frame; assumption|split; [|split]]].
  - eapply wf_of; [exact (wfv_detach _ _ _ _ _ _ node self (rem node l) W EP FR (remove_nodup _ _ ND) ltac:(intros c; rewrite remove_in, KL; tauto))| | | | |]; auto.
  - intros y. rewrite V3. upd_case y self; [rewrite KL; reflexivity|]. symmetry. apply remove_notin. intros I. apply (w_cp _ _ _ _ _ _ W) in I. congruence.
  - rewrite V2. apply upd_same.
  - intros y Hy. rewrite V2. apply upd_other; assumption.
Qed.
