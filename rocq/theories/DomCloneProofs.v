(* Proofs about clone_node. *)
From Verif Require Import Str SerializerModel SanModel DomModel DomSpec DomViewProofs DomProofs DomOpProofs DomInvProofs.
From Coq Require Import Lia Relations.
Open Scope nat_scope.

Record shell (F : Prop) (h : heap) (x : nat) (a : option attr_list) (r : nat * heap) : Prop := {
  sh_inv : inv F (snd r); sh_grows : grows h (snd r); sh_lo : hnext h <= fst r; sh_hi : fst r < hnext (snd r);
  sh_par : vP (snd r) (fst r) = None; sh_kidl : kidl (snd r) (fst r) = [];
  sh_kids : kids (cell_at (snd r) (fst r)) = None <-> kids (cell_at h x) = None;
  sh_tcon : vT (snd r) (fst r) = None <-> vT h x = None;
  sh_label : label_at (snd r) (fst r) = let l := label_at h x in Label (l_kind l) (l_name l) (l_ns l) a (l_data l) (l_meta l) (l_end l) (l_self l);
  sh_attrs : forall d, attrs (cell_at (snd r) (fst r)) = Some d -> dnext h <= d < dnext (snd r) }.

Lemma inv_set_cell F h x c : inv F h -> x < hnext h -> kd c = kd (cell_at h x) -> par c = par (cell_at h x) -> kids c = kids (cell_at h x) -> tcon c = tcon (cell_at h x) ->
  cell_ok (dnext h) (dict_at h) c -> inv F (set_cell h x c).
Proof.
  intros [I1 I2 I3] Hx H1 H2 H3 H4 H5. constructor.
  - eapply wf_of; [exact I1| | | | |]; [reflexivity| | | |]; intros y; unfold vK, vP, vT, kidl; rewrite cell_set; destruct (y =? x) eqn:E; try reflexivity; apply Nat.eqb_eq in E; subst; rewrite ?H1, ?H2, ?H3, ?H4; reflexivity.
  - intros y Hy. rewrite cell_set. destruct (y =? x); [exact H5|apply I2; exact Hy].
  - intros y Hy. unfold vK in Hy. rewrite cell_set in *. destruct (y =? x) eqn:E; [|apply I3; exact Hy]. apply Nat.eqb_eq in E; subst. rewrite H3. apply I3. unfold vK. congruence.
Qed.

Lemma cell_ok_meta dn dict c m e s : (kd c = KElement \/ kd c = KTemplate \/ (e = false /\ s = false)) -> cell_ok dn dict c -> cell_ok dn dict (with_meta m e s c).
Proof.
  destruct c. unfold cell_ok, with_meta. cbn [DomModel.kd DomModel.nm DomModel.ns DomModel.attrs DomModel.data DomModel.meta DomModel.end_tag DomModel.self_close DomModel.par DomModel.kids DomModel.tcon].
  intros H [H1 H2]. split; [exact H1|]. destruct kd; try exact H2; destruct H as [H | [H | [-> ->]]]; try discriminate H; tauto.
Qed.

Lemma shell_of F h x a r k c m e s : inv F h -> fresh F h r k c a -> (k = KElement \/ k = KTemplate \/ (e = false /\ s = false)) ->
  (kids c = None <-> kids (cell_at h x) = None) -> (tcon c = None <-> tcon (cell_at h x) = None) ->
  k = kd (cell_at h x) -> nm c = nm (cell_at h x) -> ns c = ns (cell_at h x) -> data c = data (cell_at h x) -> m = meta (cell_at h x) ->
  e = end_tag (cell_at h x) -> s = self_close (cell_at h x) -> shell F h x a (copy_meta e s m r).
Proof.
  intros I [A1 A2 A3 A4 A5 A6 A7 A8 A9 A10] HK HKd HT E1 E2 E3 E4 E5 E6 E7. destruct r as [n h1]. cbn [fst snd] in *. unfold copy_meta.
  rewrite A6. set (h2 := set_cell h1 n (with_meta m e s c)).
  assert (C2 : cell_at h2 n = with_meta m e s c) by (unfold h2; rewrite cell_set, Nat.eqb_refl; reflexivity).
  constructor; cbn [fst snd].
  - apply inv_set_cell; auto; try (rewrite A6; destruct c; reflexivity). apply cell_ok_meta; [rewrite A5; exact HK|]. rewrite <- A6. apply (i_ok _ _ A1). exact A4.
  - destruct A2 as [B1 B2 B3 B4]. constructor; auto.
    intros y Hy. unfold h2. rewrite cell_set. assert (y =? n = false) as -> by (apply Nat.eqb_neq; lia). auto.
  - exact A3.
  - exact A4.
  - unfold vP. rewrite C2. destruct c; exact A7.
  - unfold kidl. rewrite C2. destruct c; cbn in *. destruct A8 as [-> | ->]; reflexivity.
  - rewrite C2. destruct c; exact HKd.
  - unfold vT. rewrite C2. destruct c; exact HT.
  - unfold label_at. rewrite C2. cbn [l_kind l_name l_ns l_data l_meta l_end l_self].
    change (dict_at h2) with (dict_at h1). destruct c; cbn in *. f_equal; congruence.
  - rewrite C2. intros d Hd. apply A10. destruct c; exact Hd.
Qed.

Lemma attrs_value_has h x : has (attrs (cell_at h x)) -> Some (dict_or_new (attrs_value h x)) = attrs_value h x.
Proof. unfold attrs_value, has. destruct (attrs (cell_at h x)); [reflexivity|contradiction]. Qed.

(* the attributes of a shallow clone *)
Definition cloned_attrs (h : heap) (x : nat) (ov : option attr_list) : option attr_list :=
  match kd (cell_at h x), ov, attrs_value h x with
  | (KNode | KElement | KTemplate), Some o, Some _ => Some o
  | _, _, v => v
  end.
Lemma iff_none {A B} (a : option A) (b : option B) : has a -> has b -> (a = None <-> b = None).
Proof. unfold has. tauto. Qed.
Lemma clone_shallow_spec F h x ov : inv F h -> x < hnext h -> shell F h x (cloned_attrs h x ov) (clone_shallow h x ov).
Proof.
  intros I Hx. pose proof (i_ok _ _ I x Hx) as [O1 O2]. unfold clone_shallow, cloned_attrs.
  destruct (kd (cell_at h x)) eqn:EK.
  - (* Node *)
    destruct O2 as [P1 [P2 [P3 P4]]].
    pose proof (fresh_node F h (nm (cell_at h x)) (match ov with Some o => Some o | None => attrs_value h x end) (data (cell_at h x)) (ns (cell_at h x)) I) as Fh.
    destruct (hash_name (nm (cell_at h x))) eqn:E1; [destruct (leaf_name (nm (cell_at h x))) eqn:E2|]; cbn [andb] in Fh; unfold node_cell in Fh; rewrite ?E1, ?E2 in Fh.
    + destruct P4 as [Q1 Q2]. unfold attrs_value. rewrite Q2. cbn [option_map]. unfold attrs_value in Fh. rewrite Q2 in Fh. cbn [option_map] in Fh.
      replace (match ov with Some _ | _ => None end) with (@None attr_list) by (destruct ov; reflexivity).
      eapply shell_of; [exact I|exact Fh|..]; cbn [kids tcon nm ns data]; auto; try (rewrite Q1; tauto); rewrite P1; tauto.
    + destruct P4 as [Q1 Q2].
      assert (EA : Some (dict_or_new (match ov with Some o => Some o | None => attrs_value h x end)) = match ov, attrs_value h x with Some o, Some _ => Some o | _, v => v end).
      { rewrite <- (attrs_value_has _ _ Q2). destruct ov; reflexivity. }
      rewrite EA in Fh. eapply shell_of; [exact I|exact Fh|..]; cbn [kids tcon nm ns data]; auto; try (rewrite P1; tauto). apply iff_none; [discriminate|exact Q1].
    + destruct P4 as [Q0 [Q1 Q2]].
      assert (EA : Some (dict_or_new (match ov with Some o => Some o | None => attrs_value h x end)) = match ov, attrs_value h x with Some o, Some _ => Some o | _, v => v end).
      { rewrite <- (attrs_value_has _ _ Q2). destruct ov; reflexivity. }
      rewrite EA in Fh. eapply shell_of; [exact I|exact Fh|..]; cbn [kids tcon nm ns data]; auto; try (rewrite P1; tauto). apply iff_none; [discriminate|exact Q1].
  - destruct O2 as (P1 & P2 & P3 & P4 & P5 & P6 & P7 & d & P8 & P9).
    assert (EA : attrs_value h x = Some []) by (unfold attrs_value; rewrite P8; cbn; rewrite P9; reflexivity).
    rewrite EA.
    eapply shell_of; [exact I|exact (fresh_document F h I)|..]; cbn [kids tcon nm ns data doc_cell]; auto; try (rewrite P5; tauto). apply iff_none; [discriminate|exact P4].
  - destruct O2 as (P1 & P2 & P3 & P4 & P5 & P6 & P7 & d & P8 & P9).
    assert (EA : attrs_value h x = Some []) by (unfold attrs_value; rewrite P8; cbn; rewrite P9; reflexivity).
    rewrite EA.
    eapply shell_of; [exact I|exact (fresh_fragment F h I)|..]; cbn [kids tcon nm ns data doc_cell]; auto; try (rewrite P5; tauto). apply iff_none; [discriminate|exact P4].
  - destruct O2 as (P1 & P2 & P3 & P4 & P5 & P6 & P7 & P8).
    assert (EA : attrs_value h x = None) by (unfold attrs_value; rewrite P8; reflexivity).
    rewrite EA.
    rewrite P3. eapply shell_of; [exact I|exact (fresh_comment F h _ I P3)|..]; cbn [kids tcon nm ns data leaf_cell]; auto; try (rewrite P5; tauto). rewrite P4; tauto.
  - destruct O2 as (P1 & P2 & P3 & P4 & P5 & P6 & P7 & P8).
    assert (EA : attrs_value h x = None) by (unfold attrs_value; rewrite P8; reflexivity).
    rewrite EA.
    rewrite P3. eapply shell_of; [exact I|exact (fresh_pi F h _ I P3)|..]; cbn [kids tcon nm ns data leaf_cell]; auto; try (rewrite P5; tauto). rewrite P4; tauto.
  - destruct O2 as (P1 & P2 & P3 & P4).
    assert (EA : Some (dict_or_new (match ov with Some o => Some o | None => attrs_value h x end)) = match ov, attrs_value h x with Some o, Some _ => Some o | _, v => v end).
    { rewrite <- (attrs_value_has _ _ P3). destruct ov; reflexivity. }
    rewrite <- EA. eapply shell_of; [exact I|exact (fresh_element F h _ _ _ I)|..]; cbn [kids tcon nm ns data el_cell]; auto; try (rewrite P4; tauto). apply iff_none; [discriminate|exact P2].
  - destruct O2 as (P1 & P2 & P3 & P4).
    assert (EA : Some (dict_or_new (match ov with Some o => Some o | None => attrs_value h x end)) = match ov, attrs_value h x with Some o, Some _ => Some o | _, v => v end).
    { rewrite <- (attrs_value_has _ _ P3). destruct ov; reflexivity. }
    rewrite <- EA. destruct (fresh_template F h (nm (cell_at h x)) (match ov with Some o => Some o | None => attrs_value h x end) (ns (cell_at h x)) I) as [t Fh].
    eapply shell_of; [exact I|exact Fh|..]; cbn [kids tcon nm ns data el_cell]; auto; [apply iff_none; [discriminate|exact P2]|].
    pose proof (i_ok _ _ (fh_inv _ _ _ _ _ _ Fh) _ (fh_hi _ _ _ _ _ _ Fh)) as [_ O3]. rewrite (fh_cell _ _ _ _ _ _ Fh) in O3. cbn [kd el_cell data kids attrs tcon ns] in O3.
    destruct O3 as (_ & _ & _ & O3). rewrite <- P4 in O3. clear -O3. destruct t, (tcon (cell_at h x)); split; intros Q; try reflexivity; try discriminate Q; exfalso.
    + assert (Z : @None nat <> None) by (apply O3; discriminate). apply Z; reflexivity.
    + assert (Z : @None nat <> None) by (apply O3; discriminate). apply Z; reflexivity.
  - destruct O2 as (P1 & P2 & P3 & P4 & P5 & P6 & P7).
    assert (EA : attrs_value h x = None) by (unfold attrs_value; rewrite P3; reflexivity).
    rewrite EA.
    eapply shell_of; [exact I|exact (fresh_text F h _ I)|..]; cbn [kids tcon nm ns data text_cell]; auto; try (rewrite P5; tauto). rewrite P4; tauto.
Qed.
