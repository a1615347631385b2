(* The invariant of node heaps, and the constructors. *)
From Verif Require Import Str SerializerModel SanModel DomModel DomSpec DomViewProofs DomProofs DomOpProofs.
From Coq Require Import Lia Relations.
Open Scope nat_scope.

Definition has (A : Type) (o : option A) := o <> None.
Arguments has {A}.
Definition cell_ok (dn : nat) (dict : nat -> attr_list) (c : cell) : Prop :=
  (forall d, attrs c = Some d -> d < dn) /\
  match kd c with
  | KNode => tcon c = None /\ end_tag c = false /\ self_close c = false /\
             (if hash_name (nm c) then (if leaf_name (nm c) then kids c = None /\ attrs c = None else has (kids c) /\ has (attrs c))
              else ns_or_html (ns c) = ns c /\ has (kids c) /\ has (attrs c))
  | KDocument => nm c = u "#document" /\ ns c = None /\ data c = DNone /\ has (kids c) /\ tcon c = None /\ end_tag c = false /\ self_close c = false /\
                 exists d, attrs c = Some d /\ dict d = []
  | KFragment => nm c = u "#document-fragment" /\ ns c = None /\ data c = DNone /\ has (kids c) /\ tcon c = None /\ end_tag c = false /\ self_close c = false /\
                 exists d, attrs c = Some d /\ dict d = []
  | KComment => nm c = u "#comment" /\ ns c = None /\ str_data (data c) = data c /\ kids c = None /\ tcon c = None /\ end_tag c = false /\ self_close c = false /\ attrs c = None
  | KPI => nm c = u "#processing-instruction" /\ ns c = None /\ str_data (data c) = data c /\ kids c = None /\ tcon c = None /\ end_tag c = false /\ self_close c = false /\ attrs c = None
  | KElement => data c = DNone /\ has (kids c) /\ has (attrs c) /\ tcon c = None
  | KTemplate => data c = DNone /\ has (kids c) /\ has (attrs c) /\ (tcon c <> None <-> opt_str_eqb (ns c) (u "html") = true)
  | KText => nm c = u "#text" /\ ns c = None /\ attrs c = None /\ kids c = Some [] /\ tcon c = None /\ end_tag c = false /\ self_close c = false
  end.
Record inv (F : Prop) (h : heap) : Prop := {
  i_wf : wf F h; i_ok : forall x, x < hnext h -> cell_ok (dnext h) (dict_at h) (cell_at h x); i_text : text_ok h }.

Lemma inv_frag F h : inv F h -> frag_ok h.
Proof.
  intros I x Hx Kx. pose proof (i_ok _ _ I x Hx) as [_ O]. unfold vK in Kx. rewrite Kx in O. unfold has in O. tauto.
Qed.
Lemma cell_ok_frame dn dict c c' : core c' = core c -> (kids c' = None <-> kids c = None) -> (kd c = KText -> kids c' = kids c) -> cell_ok dn dict c -> cell_ok dn dict c'.
Proof.
  destruct c, c'. unfold core, with_par, with_kids. cbn [DomModel.kd DomModel.nm DomModel.ns DomModel.attrs DomModel.data DomModel.meta DomModel.end_tag DomModel.self_close DomModel.par DomModel.kids DomModel.tcon].
  intros E EK ET. injection E as -> -> -> -> -> -> -> -> ->. unfold cell_ok, has.
  cbn [DomModel.kd DomModel.nm DomModel.ns DomModel.attrs DomModel.data DomModel.meta DomModel.end_tag DomModel.self_close DomModel.par DomModel.kids DomModel.tcon].
  intros [H1 H2]. split; [exact H1|]. destruct kd; try (rewrite EK; exact H2).
  - destruct (hash_name nm); [destruct (leaf_name nm)|]; rewrite EK; exact H2.
  - rewrite (ET eq_refl). exact H2.
Qed.
Lemma inv_frame F h h' : frame h h' -> wf F h' -> inv F h -> inv F h'.
Proof.
  intros Fr W [I1 I2 I3]. constructor; [exact W| |eapply text_frame; eauto].
  intros x Hx. rewrite (fr_dnext _ _ Fr), (fr_dict _ _ Fr). rewrite (fr_next _ _ Fr) in Hx.
  eapply cell_ok_frame; [apply (fr_core _ _ Fr)|apply (fr_kids _ _ Fr)|apply (fr_text _ _ Fr)|]. auto.
Qed.

(* heaps only grow *)
Record grows (h h' : heap) : Prop := {
  g_next : hnext h <= hnext h'; g_dnext : dnext h <= dnext h';
  g_cells : forall y, y < hnext h -> cell_at h' y = cell_at h y; g_dict : forall d, d < dnext h -> dict_at h' d = dict_at h d }.
Lemma grows_refl h : grows h h. Proof. constructor; auto. Qed.
Lemma grows_trans a b c : grows a b -> grows b c -> grows a c.
Proof. intros [A1 A2 A3 A4] [B1 B2 B3 B4]. constructor; intros; try lia; [rewrite B3 by lia; auto|rewrite B4 by lia; auto]. Qed.

Lemma wf_new_cell F h c : wf F h -> par c = None -> (kids c = None \/ kids c = Some []) -> tcon c = None -> wf F (snd (new_cell h c)).
Proof.
  intros W Hp Hk Ht. eapply wf_of; [apply (wfv_alloc _ _ _ _ _ _ (kd c) W)| | | | |]; [reflexivity| | | |]; intros x; unfold new_cell; cbn [snd].
  - unfold vK, upd; cbn [cell_at]. destruct (x =? hnext h); reflexivity.
  - unfold vP; cbn [cell_at]. destruct (x =? hnext h) eqn:E; [|reflexivity]. apply Nat.eqb_eq in E. subst.
    rewrite Hp. symmetry. apply (w_out _ _ _ _ _ _ W (hnext h) (le_n _)).
  - unfold kidl; cbn [cell_at]. destruct (x =? hnext h) eqn:E; [|reflexivity]. apply Nat.eqb_eq in E. subst.
    transitivity (kidl h (hnext h)); [|reflexivity]. destruct (w_out _ _ _ _ _ _ W (hnext h) (le_n _)) as [_ [-> _]].
    destruct Hk as [-> | ->]; reflexivity.
  - unfold vT; cbn [cell_at]. destruct (x =? hnext h) eqn:E; [|reflexivity]. apply Nat.eqb_eq in E. subst.
    rewrite Ht. symmetry. apply (w_out _ _ _ _ _ _ W (hnext h) (le_n _)).
Qed.
Lemma cell_ok_dicts dn dict dn' dict' c : dn <= dn' -> (forall d, d < dn -> dict' d = dict d) -> cell_ok dn dict c -> cell_ok dn' dict' c.
Proof.
  intros L E [H1 H2]. split; [intros d Hd; pose proof (H1 d Hd); lia|]. destruct (kd c); auto.
  - destruct H2 as (a & b & c0 & d & e & f & g & x & X1 & X2). repeat split; auto. exists x. rewrite E; auto.
  - destruct H2 as (a & b & c0 & d & e & f & g & x & X1 & X2). repeat split; auto. exists x. rewrite E; auto.
Qed.
Lemma inv_new_dict F h a : inv F h -> inv F (snd (new_dict h a)).
Proof.
  intros [I1 I2 I3]. constructor; [exact I1| |exact I3]. intros x Hx. cbn [snd new_dict dnext dict_at]. apply (cell_ok_dicts (dnext h) (dict_at h)); [lia| |apply I2; exact Hx].
  intros d Hd. assert (d =? dnext h = false) as -> by (apply Nat.eqb_neq; lia). reflexivity.
Qed.
Lemma inv_new_cell F h c : inv F h -> par c = None -> (kids c = None \/ kids c = Some []) -> tcon c = None -> cell_ok (dnext h) (dict_at h) c -> inv F (snd (new_cell h c)).
Proof.
  intros [I1 I2 I3] H1 H2 H3 H4. constructor.
  - apply wf_new_cell; auto.
  - intros x Hx. cbn [snd new_cell dnext dict_at cell_at hnext] in *. destruct (x =? hnext h) eqn:E; [exact H4|]. apply Nat.eqb_neq in E. apply I2. lia.
  - intros x Hx. cbn [snd new_cell cell_at] in *. unfold vK in Hx. cbn [cell_at] in Hx. destruct (x =? hnext h) eqn:E; [|apply I3; exact Hx].
    destruct H4 as [_ H4]. rewrite Hx in H4. tauto.
Qed.
Lemma text_new_cell h c : text_ok h -> (kd c = KText -> kids c = Some []) -> text_ok (snd (new_cell h c)).
Proof. intros T H x Hx. unfold vK in Hx. cbn [snd new_cell cell_at] in *. destruct (x =? hnext h); [auto|apply T; exact Hx]. Qed.
Lemma grows_new_dict h a : grows h (snd (new_dict h a)).
Proof. constructor; cbn; auto; try lia. intros d Hd. assert (d =? dnext h = false) as -> by (apply Nat.eqb_neq; lia). reflexivity. Qed.
Lemma grows_new_cell h c : grows h (snd (new_cell h c)).
Proof. constructor; cbn; auto; try lia. intros d Hd. assert (d =? hnext h = false) as -> by (apply Nat.eqb_neq; lia). reflexivity. Qed.

(* a fresh unlinked node *)
Record fresh (F : Prop) (h : heap) (r : nat * heap) (k : kind) (c : cell) (a : option attr_list) : Prop := {
  fh_inv : inv F (snd r); fh_grows : grows h (snd r); fh_lo : hnext h <= fst r; fh_hi : fst r < hnext (snd r);
  fh_kd : kd c = k; fh_cell : cell_at (snd r) (fst r) = c; fh_par : par c = None; fh_kids : kids c = None \/ kids c = Some [];
  fh_attrs : option_map (dict_at (snd r)) (attrs c) = a; fh_adict : forall d, attrs c = Some d -> dnext h <= d < dnext (snd r) }.

Lemma fresh_plain F h c : inv F h -> par c = None -> (kids c = None \/ kids c = Some []) -> tcon c = None -> attrs c = None -> cell_ok (dnext h) (dict_at h) c ->
  fresh F h (new_cell h c) (kd c) c None.
Proof.
  intros I H1 H2 H3 H4 H5. constructor.
  - apply inv_new_cell; auto.
  - apply grows_new_cell.
  - cbn. lia.
  - cbn. lia.
  - reflexivity.
  - cbn. rewrite Nat.eqb_refl. reflexivity.
  - exact H1.
  - exact H2.
  - rewrite H4. reflexivity.
  - intros d Q. congruence.
Qed.
Lemma fresh_attrs F h c a : inv F h -> par c = None -> (kids c = None \/ kids c = Some []) -> tcon c = None -> attrs c = Some (dnext h) ->
  cell_ok (S (dnext h)) (dict_at (snd (new_dict h a))) c ->
  fresh F h (new_cell (snd (new_dict h a)) c) (kd c) c (Some a).
Proof.
  intros I H1 H2 H3 H4 H5. constructor.
  - apply inv_new_cell; auto. apply inv_new_dict. exact I.
  - eapply grows_trans; [apply grows_new_dict|apply grows_new_cell].
  - cbn. lia.
  - cbn. lia.
  - reflexivity.
  - cbn. rewrite Nat.eqb_refl. reflexivity.
  - exact H1.
  - exact H2.
  - rewrite H4. cbn. rewrite Nat.eqb_refl. reflexivity.
  - intros d Q. rewrite H4 in Q. injection Q as <-. cbn. lia.
Qed.

(* the constructors; [cc] is the new node's cell *)
Definition node_cell (h : heap) (name : str) (d : doctype_data) (n : option str) : cell :=
  if hash_name name then
    if leaf_name name then Cell KNode name n None d None false false None None None
    else Cell KNode name n (Some (dnext h)) d None false false None (Some []) None
  else Cell KNode name (ns_or_html n) (Some (dnext h)) d None false false None (Some []) None.
Lemma ns_or_idem n : ns_or_html (ns_or_html n) = ns_or_html n.
Proof. destruct n as [[|c t]|]; reflexivity. Qed.
Lemma fresh_node F h name a d n : inv F h ->
  fresh F h (init_node KNode h name a d n) KNode (node_cell h name d n) (if hash_name name && leaf_name name then None else Some (dict_or_new a)).
Proof.
  intros I. unfold init_node, node_cell. destruct (hash_name name) eqn:E1; [destruct (leaf_name name) eqn:E2|]; cbn [andb].
  - apply (fresh_plain F h (Cell KNode name n None d None false false None None None) I); cbn [par kids tcon attrs]; auto. split; [intros ? Q; discriminate Q|]. cbn [kd nm tcon end_tag self_close kids attrs]. rewrite E1, E2. auto.
  - apply (fresh_attrs F h (Cell KNode name n (Some (dnext h)) d None false false None (Some []) None) _ I); cbn [par kids tcon attrs]; auto.
    split; [cbn; intros ? Q; injection Q as <-; lia|]. cbn [kd nm tcon end_tag self_close kids attrs]. rewrite E1, E2. unfold has. repeat split; discriminate.
  - apply (fresh_attrs F h (Cell KNode name (ns_or_html n) (Some (dnext h)) d None false false None (Some []) None) _ I); cbn [par kids tcon attrs]; auto.
    split; [cbn; intros ? Q; injection Q as <-; lia|]. cbn [kd nm ns tcon end_tag self_close kids attrs]. rewrite E1. unfold has. repeat split; try discriminate. apply ns_or_idem.
Qed.
Definition doc_cell (k : kind) (name : str) (h : heap) := Cell k name None (Some (dnext h)) DNone None false false None (Some []) None.
Lemma fresh_document F h : inv F h -> fresh F h (new_document h) KDocument (doc_cell KDocument (u "#document") h) (Some []).
Proof.
  intros I. apply (fresh_attrs F h (doc_cell KDocument (u "#document") h) [] I); cbn [par kids tcon attrs doc_cell]; auto.
  split; [cbn; intros ? Q; injection Q as <-; lia|]. cbn [kd nm ns data tcon end_tag self_close kids attrs doc_cell]. unfold has. repeat split; try discriminate.
  exists (dnext h). split; [reflexivity|]. cbn. rewrite Nat.eqb_refl. reflexivity.
Qed.
Lemma fresh_fragment F h : inv F h -> fresh F h (new_fragment h) KFragment (doc_cell KFragment (u "#document-fragment") h) (Some []).
Proof.
  intros I. apply (fresh_attrs F h (doc_cell KFragment (u "#document-fragment") h) [] I); cbn [par kids tcon attrs doc_cell]; auto.
  split; [cbn; intros ? Q; injection Q as <-; lia|]. cbn [kd nm ns data tcon end_tag self_close kids attrs doc_cell]. unfold has. repeat split; try discriminate.
  exists (dnext h). split; [reflexivity|]. cbn. rewrite Nat.eqb_refl. reflexivity.
Qed.
Definition leaf_cell (k : kind) (name : str) (d : doctype_data) := Cell k name None None d None false false None None None.
Lemma fresh_comment F h d : inv F h -> str_data d = d -> fresh F h (new_comment h d) KComment (leaf_cell KComment (u "#comment") d) None.
Proof.
  intros I E. apply (fresh_plain F h (leaf_cell KComment (u "#comment") d) I); auto.
  split; [intros ? Q; discriminate Q|]. cbn [kd nm ns data tcon end_tag self_close kids attrs leaf_cell]. repeat split; auto.
Qed.
Lemma fresh_pi F h d : inv F h -> str_data d = d -> fresh F h (new_pi h d) KPI (leaf_cell KPI (u "#processing-instruction") d) None.
Proof.
  intros I E. apply (fresh_plain F h (leaf_cell KPI (u "#processing-instruction") d) I); auto.
  split; [intros ? Q; discriminate Q|]. cbn [kd nm ns data tcon end_tag self_close kids attrs leaf_cell]. repeat split; auto.
Qed.
Definition text_cell (d : doctype_data) := Cell KText (u "#text") None None d None false false None (Some []) None.
Lemma fresh_text F h d : inv F h -> fresh F h (new_text h d) KText (text_cell d) None.
Proof.
  intros I. apply (fresh_plain F h (text_cell d) I); auto.
  split; [intros ? Q; discriminate Q|]. cbn [kd nm ns data tcon end_tag self_close kids attrs text_cell]. repeat split; auto.
Qed.
Definition el_cell (k : kind) (name : str) (n : option str) (h : heap) (t : option nat) := Cell k name n (Some (dnext h)) DNone None false false None (Some []) t.
Lemma fresh_element F h name a n : inv F h -> fresh F h (new_element KElement h name a n) KElement (el_cell KElement name n h None) (Some (dict_or_new a)).
Proof.
  intros I. apply (fresh_attrs F h (el_cell KElement name n h None) _ I); cbn [par kids tcon attrs el_cell]; auto.
  split; [cbn; intros ? Q; injection Q as <-; lia|]. cbn [kd nm ns data tcon end_tag self_close kids attrs el_cell]. unfold has. repeat split; discriminate.
Qed.

Lemma abv_lt P N a s : (forall y p, y < N -> P y = Some p -> p < N) -> abv P a s -> s < N -> a < N.
Proof. intros H A. induction A; intros L; [assumption|]. apply IHA. eauto. Qed.

Lemma fresh_template F h name a n : inv F h ->
  exists t, fresh F h (new_template h name a n) KTemplate (el_cell KTemplate name n h t) (Some (dict_or_new a)).
Proof.
  intros I. unfold new_template.
  destruct (new_element KTemplate h name a n) as [t h1] eqn:E.
  assert (Et : t = hnext h) by (change t with (fst (t, h1)); rewrite <- E; reflexivity).
  assert (Eh1 : h1 = snd (new_cell (snd (new_dict h (dict_or_new a))) (el_cell KTemplate name n h None))) by (change h1 with (snd (t, h1)) at 1; rewrite <- E; reflexivity).
  destruct (opt_str_eqb n (u "html")) eqn:EN.
  - (* html template *)
    set (tc := el_cell KTemplate name n h None) in *.
    assert (W1 : wf F h1). { rewrite Eh1. apply wf_new_cell; [apply (inv_new_dict F h _ I)| | |]; auto. }
    destruct (new_fragment h1) as [f h2] eqn:E2.
    assert (Ef : f = S (hnext h)) by (change f with (fst (f, h2)); rewrite <- E2, Eh1; reflexivity).
    assert (Eh2 : h2 = snd (new_cell (snd (new_dict h1 [])) (doc_cell KFragment (u "#document-fragment") h1))) by (change h2 with (snd (f, h2)) at 1; rewrite <- E2; reflexivity).
    assert (W2 : wf F h2). { rewrite Eh2. apply wf_new_cell; auto. }
    assert (N2 : hnext h2 = S (S (hnext h))) by (rewrite Eh2, Eh1; reflexivity).
    assert (C2 : forall y, y < hnext h -> cell_at h2 y = cell_at h y).
    { intros y Hy. rewrite Eh2, Eh1. cbn. assert (y =? S (hnext h) = false) as -> by (apply Nat.eqb_neq; lia). assert (y =? hnext h = false) as -> by (apply Nat.eqb_neq; lia). reflexivity. }
    assert (Ct : cell_at h2 t = tc).
    { rewrite Eh2, Eh1, Et. cbn [snd new_cell new_dict cell_at hnext]. assert (hnext h =? S (hnext h) = false) as -> by (apply Nat.eqb_neq; lia). rewrite Nat.eqb_refl. reflexivity. }
    assert (Cf : cell_at h2 f = doc_cell KFragment (u "#document-fragment") h1).
    { rewrite Eh2, Eh1, Ef. cbn [snd new_cell new_dict cell_at hnext]. rewrite Nat.eqb_refl. reflexivity. }
    assert (Dn : dnext h2 = S (S (dnext h))) by (rewrite Eh2, Eh1; reflexivity).
    assert (D1 : dnext h1 = S (dnext h)) by (rewrite Eh1; reflexivity).
    assert (Dd : forall d, d < dnext h -> dict_at h2 d = dict_at h d).
    { intros d Hd. rewrite Eh2, Eh1. cbn. assert (d =? S (dnext h) = false) as -> by (apply Nat.eqb_neq; lia). assert (d =? dnext h = false) as -> by (apply Nat.eqb_neq; lia). reflexivity. }
    assert (Da : dict_at h2 (dnext h) = dict_or_new a).
    { rewrite Eh2, Eh1. cbn [snd new_cell new_dict dict_at dnext]. assert (dnext h =? S (dnext h) = false) as -> by (apply Nat.eqb_neq; lia). rewrite Nat.eqb_refl. reflexivity. }
    assert (Df : dict_at h2 (S (dnext h)) = []).
    { rewrite Eh2, Eh1. cbn [snd new_cell new_dict dict_at dnext]. rewrite Nat.eqb_refl. reflexivity. }
    assert (T2 : text_ok h2).
    { rewrite Eh2. apply text_new_cell; [|intros Q; discriminate Q]. change (text_ok h1). rewrite Eh1. apply text_new_cell; [|intros Q; discriminate Q]. exact (i_text _ _ I). }
    clear Eh1 Eh2 E E2.
    set (h3 := set_par (set_tcon h2 t (Some f)) f (Some t)).
    assert (TF : t <> f) by lia.
    assert (C3t : cell_at h3 t = el_cell KTemplate name n h (Some f)).
    { unfold h3, set_par, set_tcon. rewrite cell_set. assert (t =? f = false) as -> by (apply Nat.eqb_neq; exact TF). rewrite cell_set, Nat.eqb_refl, Ct. reflexivity. }
    assert (C3f : cell_at h3 f = with_par (Some t) (doc_cell KFragment (u "#document-fragment") h1)).
    { unfold h3, set_par. rewrite cell_set, Nat.eqb_refl. f_equal. unfold set_tcon. rewrite cell_set. assert (f =? t = false) as -> by (apply Nat.eqb_neq; congruence). exact Cf. }
    assert (C3o : forall y, y <> t -> y <> f -> cell_at h3 y = cell_at h2 y).
    { intros y H1 H2. unfold h3, set_par, set_tcon. rewrite cell_set. assert (y =? f = false) as -> by (apply Nat.eqb_neq; exact H2). rewrite cell_set. assert (y =? t = false) as -> by (apply Nat.eqb_neq; exact H1). reflexivity. }
    exists (Some f). constructor; cbn [fst snd].
    + constructor.
      * eapply wf_of; [apply (wfv_content F _ _ _ _ _ t f W2)| | | | |].
        -- unfold vK. rewrite Ct. reflexivity.
        -- unfold vK. rewrite Cf. reflexivity.
        -- lia.
        -- lia.
        -- unfold vP. rewrite Cf. reflexivity.
        -- unfold kidl. rewrite Cf. reflexivity.
        -- intros x Q. unfold vT in Q. destruct (Nat.lt_ge_cases x (hnext h)) as [L | L].
           ++ rewrite C2 in Q by exact L. pose proof (w_tf _ _ _ _ _ _ (i_wf _ _ I) x f Q) as [_ [Z _]]. lia.
           ++ destruct (Nat.eq_dec x t) as [-> |]; [rewrite Ct in Q; discriminate Q|]. destruct (Nat.eq_dec x f) as [-> |]; [rewrite Cf in Q; discriminate Q|].
              destruct (w_out _ _ _ _ _ _ W2 x ltac:(lia)) as [_ [_ Z]]. unfold vT in Z. congruence.
        -- intros A. apply (abv_lt _ (S (hnext h))) in A; [lia| |lia]. intros y p Hy Hp.
           destruct (Nat.eq_dec y t) as [-> |]; [unfold vP in Hp; rewrite Ct in Hp; discriminate Hp|].
           unfold vP in Hp. rewrite C2 in Hp by lia. apply (out_range _ _ _ _ _ _ (i_wf _ _ I)) in Hp. lia.
        -- reflexivity.
        -- intros x. unfold h3. rewrite vK_set_par. unfold vK, set_tcon. rewrite cell_set. destruct (x =? t) eqn:Q; [apply Nat.eqb_eq in Q; subst|]; reflexivity.
        -- intros x. unfold h3. rewrite vP_set_par. unfold upd. destruct (x =? f); [reflexivity|]. unfold vP, set_tcon. rewrite cell_set. destruct (x =? t) eqn:Q; [apply Nat.eqb_eq in Q; subst|]; reflexivity.
        -- intros x. unfold h3. rewrite kidl_set_par. unfold kidl, set_tcon. rewrite cell_set. destruct (x =? t) eqn:Q; [apply Nat.eqb_eq in Q; subst|]; reflexivity.
        -- intros x. unfold h3. rewrite vT_set_par. unfold vT, set_tcon, upd. rewrite cell_set. destruct (x =? t); reflexivity.
      * intros x Hx. change (dnext h3) with (dnext h2). change (dict_at h3) with (dict_at h2). change (hnext h3) with (hnext h2) in Hx.
        destruct (Nat.eq_dec x t) as [-> |].
        { rewrite C3t. split; [cbn; intros d Q; injection Q as <-; lia|]. cbn [kd data kids attrs tcon ns el_cell]. unfold has. split; [reflexivity|]. split; [discriminate|]. split; [discriminate|]. split; [intros _; exact EN|intros _; discriminate]. }
        destruct (Nat.eq_dec x f) as [-> |].
        { rewrite C3f. split; [cbn; intros d Q; injection Q as <-; lia|]. cbn [kd nm ns data tcon end_tag self_close kids attrs doc_cell with_par]. unfold has. repeat split; try discriminate.
          exists (dnext h1). split; [reflexivity|]. rewrite D1. exact Df. }
        rewrite C3o by assumption. rewrite C2 by lia. apply (cell_ok_dicts (dnext h) (dict_at h)); [lia|exact Dd|]. apply (i_ok _ _ I). lia.
      * intros x Hx. unfold vK in Hx. destruct (Nat.eq_dec x t) as [-> |]; [rewrite C3t in Hx; discriminate Hx|].
        destruct (Nat.eq_dec x f) as [-> |]; [rewrite C3f in Hx; discriminate Hx|]. rewrite C3o in * by assumption.
        apply T2. exact Hx.
    + constructor; cbn [hnext dnext cell_at dict_at].
      * change (hnext h3) with (hnext h2). lia.
      * change (dnext h3) with (dnext h2). lia.
      * intros y Hy. change (cell_at h3 y = cell_at h y). rewrite C3o by lia. apply C2. exact Hy.
      * exact Dd.
    + lia.
    + change (hnext h3) with (hnext h2). lia.
    + reflexivity.
    + exact C3t.
    + reflexivity.
    + right; reflexivity.
    + cbn [attrs el_cell option_map]. change (dict_at h3) with (dict_at h2). rewrite Da. reflexivity.
    + intros d Q. cbn in Q. injection Q as <-. change (dnext h3) with (dnext h2). lia.
  - exists None. rewrite Et, Eh1. apply (fresh_attrs F h (el_cell KTemplate name n h None) _ I); cbn [par kids tcon attrs el_cell]; auto.
    split; [cbn; intros ? Q; injection Q as <-; lia|]. cbn [kd nm ns data tcon end_tag self_close kids attrs el_cell]. unfold has. rewrite EN. split; [reflexivity|]. split; [discriminate|]. split; [discriminate|]. split; [intros Q; exfalso; apply Q; reflexivity|intros Q; discriminate Q].
Qed.
