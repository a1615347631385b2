(* Proofs about the loop of _clone_subtree_iterative. *)
From Verif Require Import Str SerializerModel SanModel DomModel DomSpec DomViewProofs DomProofs DomOpProofs DomInvProofs DomCloneProofs.
From Coq Require Import Lia Relations.
Open Scope nat_scope.

Lemma denotes_unfold h Q R x l ch tc : denotes h Q R x (Tree l ch tc) <->
  Q x /\ (forall d, attrs (cell_at h x) = Some d -> R d) /\ l = label_at h x /\
  match kids (cell_at h x), ch with None, None => True | Some ks, Some ts => Forall2 (denotes h Q R) ks ts | _, _ => False end /\
  match tcon (cell_at h x), tc with None, None => True | Some f, Some t => denotes h Q R f t | _, _ => False end.
Proof.
  assert (A : forall ks ts, (fix all2 (ks : list nat) (ts : list tree) {struct ts} : Prop :=
         match ks, ts with [], [] => True | k :: ks', t :: ts' => denotes h Q R k t /\ all2 ks' ts' | _, _ => False end) ks ts <-> Forall2 (denotes h Q R) ks ts).
  { intros ks ts. revert ks. induction ts as [|t ts IH]; intros [|k ks]; split; intros H; try contradiction; try constructor; try (inversion H; fail).
    - apply H.
    - apply IH. apply H.
    - inversion H; subst. assumption.
    - inversion H; subst. apply IH. assumption. }
  cbn [denotes]. destruct (kids (cell_at h x)) as [ks|], ch as [ts|]; try tauto. rewrite A. tauto.
Qed.
Lemma tree_ind2 (P : tree -> Prop) :
  (forall l ch tc, match ch with Some l => Forall P l | None => True end -> match tc with Some t => P t | None => True end -> P (Tree l ch tc)) -> forall t, P t.
Proof.
  intros H. fix IH 1. intros [l ch tc]. apply H.
  - destruct ch as [ts|]; [|exact I]. induction ts as [|t ts IHts]; constructor; [apply IH|exact IHts].
  - destruct tc as [t|]; [apply IH|exact I].
Qed.
Lemma denotes_mono h (Q R Q' R' : nat -> Prop) x t : (forall y, Q y -> Q' y) -> (forall e, R e -> R' e) -> denotes h Q R x t -> denotes h Q' R' x t.
Proof.
  intros HQ HR. revert x. induction t as [l ch tc IHc IHt] using tree_ind2. intros x D. apply denotes_unfold in D. apply denotes_unfold.
  destruct D as [D1 [D2 [D3 [D4 D5]]]]. split; [auto|]. split; [auto|]. split; [exact D3|]. split.
  - destruct (kids (cell_at h x)) as [ks|], ch as [ts|]; auto. clear -D4 IHc. revert IHc. induction D4; intros IHc; constructor; inversion IHc; subst; auto.
  - destruct (tcon (cell_at h x)) as [f|], tc as [t|]; auto.
Qed.
Lemma denotes_frame h h' (Q R : nat -> Prop) x t : (forall y, Q y -> cell_at h' y = cell_at h y) -> (forall e, R e -> dict_at h' e = dict_at h e) ->
  denotes h Q R x t -> denotes h' Q R x t.
Proof.
  intros HQ HR. revert x. induction t as [l ch tc IHc IHt] using tree_ind2. intros x D. apply denotes_unfold in D. apply denotes_unfold.
  destruct D as [D1 [D2 [D3 [D4 D5]]]]. rewrite (HQ x D1). split; [exact D1|]. split; [exact D2|]. split.
  - rewrite D3. unfold label_at. rewrite (HQ x D1). f_equal. destruct (attrs (cell_at h x)) as [e|] eqn:Ee; [|reflexivity]. cbn. f_equal. symmetry. apply HR. auto.
  - split.
    + destruct (kids (cell_at h x)) as [ks|], ch as [ts|]; auto. clear -D4 IHc. revert IHc. induction D4; intros IHc; constructor; inversion IHc; subst; auto.
    + destruct (tcon (cell_at h x)) as [f|], tc as [t|]; auto.
Qed.

(* everything but the nodes in T stays *)
Record same_but (T : nat -> Prop) (h h' : heap) : Prop := {
  sb_next : hnext h <= hnext h'; sb_dnext : dnext h <= dnext h';
  sb_cells : forall y, y < hnext h -> ~ T y -> cell_at h' y = cell_at h y; sb_dict : forall d, d < dnext h -> dict_at h' d = dict_at h d }.
Lemma same_but_refl T h : same_but T h h. Proof. constructor; auto. Qed.
Lemma same_but_trans T a b c : same_but T a b -> same_but T b c -> same_but T a c.
Proof. intros [A1 A2 A3 A4] [B1 B2 B3 B4]. constructor; intros; try lia; [rewrite B3 by (lia || assumption); auto|rewrite B4 by lia; auto]. Qed.
Lemma same_but_weaken (T T' : nat -> Prop) h h' : (forall y, y < hnext h -> T y -> T' y) -> same_but T h h' -> same_but T' h h'.
Proof. intros H [A1 A2 A3 A4]. constructor; auto. Qed.
Lemma grows_same T h h' : grows h h' -> same_but T h h'.
Proof. intros [A1 A2 A3 A4]. constructor; auto. Qed.
Lemma grows_same_but (T : nat -> Prop) a b c : (forall y, T y -> hnext a <= y) -> grows a b -> same_but T b c -> grows a c.
Proof. intros HT [A1 A2 A3 A4] [B1 B2 B3 B4]. constructor; intros; try lia; [|rewrite B4 by lia; auto].
  rewrite B3; [auto|lia|]. intros Q. apply HT in Q. lia. Qed.

Lemma Forall2_imp {A B} (P Q : A -> B -> Prop) l m : (forall a b, P a b -> Q a b) -> Forall2 P l m -> Forall2 Q l m.
Proof. intros H F. induction F; constructor; auto. Qed.
Lemma Forall2_app_inv_len {A B} (P : A -> B -> Prop) a a' b b' : Forall2 P (a ++ a') (b ++ b') -> List.length a = List.length b -> Forall2 P a b /\ Forall2 P a' b'.
Proof.
  revert b. induction a as [|x a IH]; intros [|y b] H L; cbn in *; try lia; [split; [constructor|exact H]|].
  inversion H; subst. destruct (IH b) as [I1 I2]; [assumption|lia|]. split; [constructor; assumption|exact I2].
Qed.
Lemma Forall2_length {A B} (P : A -> B -> Prop) l m : Forall2 P l m -> List.length l = List.length m.
Proof. intros H; induction H; cbn; congruence. Qed.
Lemma core_label h h' x : core (cell_at h' x) = core (cell_at h x) -> (forall e, attrs (cell_at h x) = Some e -> dict_at h' e = dict_at h e) -> label_at h' x = label_at h x.
Proof.
  intros C D. unfold label_at. destruct (cell_at h' x), (cell_at h x). unfold core, with_par, with_kids in C; cbn in C, D. injection C as -> -> -> -> -> -> -> -> ->. cbn. f_equal.
  destruct attrs0; [|reflexivity]. cbn. rewrite D; reflexivity.
Qed.
Lemma attach_fresh F h target c : inv F h -> c < hnext h -> target < hnext h -> kids (cell_at h target) <> None -> vK h target <> KText -> vK h c <> KFragment ->
  vP h c = None -> ~ abv (vP h) c target ->
  let h' := set_par (set_kids h target (kidl h target ++ [c])) c (Some target) in inv F h' /\ frame h h'.
Proof.
  intros I Hc Ht Kt Tt Kc Pc NA h'. assert (Fr : frame h h') by (apply link_frame; assumption). split; [|exact Fr].
  apply (inv_frame F h h' Fr); [|exact I].
  destruct (link_views h target (kidl h target ++ [c]) c (Some target)) as [V1 [V2 [V3 V4]]].
  pose proof (i_wf _ _ I) as W.
  eapply wf_of; [apply (wfv_attach F _ _ _ _ _ c target (kidl h target ++ [c]) W)| | | | |]; auto.
  - rewrite <- (app_nil_r [c]). apply NoDup_app3; [rewrite app_nil_r; apply (w_nd _ _ _ _ _ _ W)|constructor; [intros []|constructor]|].
    intros x [<- | []]. rewrite app_nil_r. apply (wf_notin _ _ _ W Pc).
  - intros x. rewrite in_app_iff. cbn. clear. firstorder auto.
Qed.

Section Clone.
Variables (F : Prop) (h0 : heap).
Hypothesis I0 : inv F h0.
Notation n0 := (hnext h0).
Notation m0 := (dnext h0).

Record shellP (c s : nat) (h : heap) : Prop := {
  p_lo : n0 <= c; p_hi : c < hnext h; p_kidl : kidl h c = []; p_kids : kids (cell_at h c) = None <-> kids (cell_at h0 s) = None;
  p_tcon : vT h c = None <-> vT h0 s = None; p_label : label_at h c = label_at h0 s;
  p_attrs : forall d, attrs (cell_at h c) = Some d -> m0 <= d < dnext h }.
Lemma shellP_same T c s h h' : same_but T h h' -> ~ T c -> shellP c s h -> shellP c s h'.
Proof.
  intros S NT [A1 A2 A3 A4 A5 A6 A7]. pose proof (sb_cells _ _ _ S c A2 NT) as E. constructor; auto.
  - pose proof (sb_next _ _ _ S). lia.
  - unfold kidl. rewrite E. exact A3.
  - rewrite E. exact A4.
  - unfold vT. rewrite E. exact A5.
  - rewrite <- A6. unfold label_at. rewrite E. f_equal. destruct (attrs (cell_at h c)) as [d|] eqn:Ed; [|reflexivity]. cbn. f_equal.
    apply (sb_dict _ _ _ S). apply A7. reflexivity.
  - rewrite E. intros d Hd. apply A7 in Hd. pose proof (sb_dnext _ _ _ S). lia.
Qed.
Lemma label_grows h x : grows h0 h -> x < n0 -> label_at h x = label_at h0 x.
Proof.
  intros G Hx. unfold label_at. rewrite (g_cells _ _ G x Hx). f_equal. pose proof (i_ok _ _ I0 x Hx) as [O _].
  destruct (attrs (cell_at h0 x)) as [d|]; [|reflexivity]. cbn. f_equal. apply (g_dict _ _ G). auto.
Qed.
Lemma shellP_of h s r : grows h0 h -> s < n0 -> inv F h -> clone_shallow h s None = r -> shellP (fst r) s (snd r).
Proof.
  intros G Hs I E. assert (S : shell F h s (cloned_attrs h s None) r).
  { rewrite <- E. apply clone_shallow_spec; [exact I|]. pose proof (g_next _ _ G). lia. }
  destruct S as [A1 A2 A3 A4 A5 A6 A7 A8 A9 A10]. pose proof (g_next _ _ G) as L1. pose proof (g_dnext _ _ G) as L2.
  pose proof (g_cells _ _ G s Hs) as ES. constructor; auto; try lia.
  - rewrite <- ES. exact A7.
  - unfold vT at 2. rewrite <- ES. exact A8.
  - rewrite <- (label_grows h s G Hs). rewrite A9. unfold cloned_attrs, attrs_value. cbn [label_at l_kind l_name l_ns l_data l_meta l_end l_self].
    unfold label_at. destruct (kd (cell_at h s)), (attrs (cell_at h s)); reflexivity.
  - intros d Hd. apply A10 in Hd. lia.
Qed.

Definition nontext (p : nat * nat) : bool := negb (kind_eqb (kd (cell_at h0 (fst p))) KText).

Lemma clone_children_spec : forall ch h target, inv F h -> grows h0 h -> n0 <= target -> target < hnext h -> kids (cell_at h target) <> None ->
  vK h target <> KText -> (forall c, In c ch -> c < n0 /\ vK h0 c <> KFragment) ->
  exists news, fst (clone_children h target ch) = filter nontext (combine ch news) /\
    let h' := snd (clone_children h target ch) in
    inv F h' /\ grows h0 h' /\ same_but (fun y => y = target) h h' /\ core (cell_at h' target) = core (cell_at h target) /\
    par (cell_at h' target) = par (cell_at h target) /\ kids (cell_at h' target) = Some (kidl h target ++ news) /\
    Forall2 (fun s c => shellP c s h' /\ hnext h <= c) ch news.
Proof.
  induction ch as [|child rest IH]; intros h target I G Ht1 Ht2 Kt Tt HC.
  - exists []. cbn [clone_children fst snd]. split; [reflexivity|]. split; [exact I|]. split; [exact G|]. split; [apply same_but_refl|]. repeat split; auto.
    rewrite app_nil_r. unfold kidl. destruct (kids (cell_at h target)); [reflexivity|contradiction].
  - cbn [clone_children]. destruct (clone_shallow h child None) as [c h1] eqn:E1.
    destruct (HC child (or_introl eq_refl)) as [Hc1 Hc2].
    pose proof (shellP_of h child (c, h1) G Hc1 I E1) as SP. cbn [fst snd] in SP.
    assert (S : shell F h child (cloned_attrs h child None) (c, h1)).
    { rewrite <- E1. apply clone_shallow_spec; [exact I|]. pose proof (g_next _ _ G). lia. }
    destruct S as [A1 A2 A3 A4 A5 A6 A7 A8 A9 A10]. cbn [fst snd] in *.
    assert (Kc : vK h1 c <> KFragment).
    { assert (vK h1 c = vK h0 child) by (pose proof (f_equal l_kind (p_label _ _ _ SP)) as Q; exact Q). congruence. }
    assert (NA : ~ abv (vP h1) c target).
    { intros A. apply (abv_lt _ (hnext h)) in A; [lia| |exact Ht2]. intros y p Hy Hp. unfold vP in Hp. rewrite (g_cells _ _ A2) in Hp by exact Hy.
      apply (out_range _ _ _ _ _ _ (i_wf _ _ I)) in Hp. lia. }
    pose proof (g_cells _ _ A2 target Ht2) as ET.
    assert (Kt1 : kids (cell_at h1 target) <> None) by (rewrite ET; exact Kt).
    assert (Tt1 : vK h1 target <> KText) by (unfold vK; rewrite ET; exact Tt).
    destruct (attach_fresh F h1 target c A1 A4 ltac:(pose proof (g_next _ _ A2); lia) Kt1 Tt1 Kc A5 NA) as [I2 Fr].
    set (h2 := set_par (set_kids h1 target (kidl h1 target ++ [c])) c (Some target)) in *.
    assert (TC : target <> c) by lia.
    assert (SB : same_but (fun y => y = target) h h2).
    { constructor.
      - rewrite (fr_next _ _ Fr). apply (g_next _ _ A2).
      - rewrite (fr_dnext _ _ Fr). apply (g_dnext _ _ A2).
      - intros y Hy HyT. unfold h2, set_par, set_kids. rewrite cell_set. assert (y =? c = false) as -> by (apply Nat.eqb_neq; lia).
        rewrite cell_set. assert (y =? target = false) as -> by (apply Nat.eqb_neq; exact HyT). apply (g_cells _ _ A2). exact Hy.
      - intros d Hd. rewrite (fr_dict _ _ Fr). apply (g_dict _ _ A2). exact Hd. }
    assert (C2t : cell_at h2 target = with_kids (Some (kidl h target ++ [c])) (cell_at h target)).
    { unfold h2, set_par, set_kids. rewrite cell_set. assert (target =? c = false) as -> by (apply Nat.eqb_neq; exact TC). rewrite cell_set, Nat.eqb_refl.
      rewrite ET. unfold kidl. rewrite ET. reflexivity. }
    assert (G2 : grows h0 h2) by (eapply grows_same_but; [|exact G|exact SB]; intros y ->; exact Ht1).
    assert (SP2 : shellP c child h2).
    { assert (E2 : cell_at h2 c = with_par (Some target) (cell_at h1 c)).
      { unfold h2, set_par, set_kids. rewrite cell_set, Nat.eqb_refl. f_equal. rewrite cell_set. assert (c =? target = false) as -> by (apply Nat.eqb_neq; congruence). reflexivity. }
      destruct SP as [Q1 Q2 Q3 Q4 Q5 Q6 Q7]. constructor.
      - exact Q1.
      - rewrite (fr_next _ _ Fr). exact Q2.
      - unfold kidl. rewrite E2. destruct (cell_at h1 c) eqn:Z; unfold kidl in Q3; rewrite Z in Q3; exact Q3.
      - rewrite E2. exact Q4.
      - unfold vT. rewrite E2. exact Q5.
      - rewrite (frame_label _ _ _ Fr). exact Q6.
      - rewrite E2, (fr_dnext _ _ Fr). exact Q7. }
    assert (L2 : target < hnext h2). { rewrite (fr_next _ _ Fr). pose proof (g_next _ _ A2); lia. }
    destruct (IH h2 target I2 G2 Ht1 L2) as [news [E3 H3]].
    + rewrite C2t. discriminate.
    + unfold vK. rewrite C2t. exact Tt.
    + intros x Hx. apply HC. right; exact Hx.
    + exists (c :: news). destruct (clone_children h2 target rest) as [pending h3] eqn:E4. cbn [fst snd] in *.
      destruct H3 as [B1 [B2 [B3 [B4 [B5 [B6 B7]]]]]].
      assert (NT : kd (cell_at h3 child) = kd (cell_at h0 child)) by (rewrite (g_cells _ _ B2 child Hc1); reflexivity).
      split; [|split; [exact B1|split; [exact B2|split; [eapply same_but_trans; eassumption|split; [|split; [|split]]]]]].
      * cbn [combine filter]. unfold nontext at 1. cbn [fst]. rewrite NT. rewrite E3. destruct (kind_eqb (kd (cell_at h0 child)) KText); reflexivity.
      * rewrite B4, C2t. destruct (cell_at h target); reflexivity.
      * rewrite B5, C2t. destruct (cell_at h target); reflexivity.
      * rewrite B6. f_equal. unfold kidl at 1. rewrite C2t. cbn [kids with_kids]. rewrite <- app_assoc. reflexivity.
      * constructor.
        -- split; [|exact A3]. eapply shellP_same; [exact B3| |exact SP2]. cbn. congruence.
        -- eapply Forall2_imp; [|exact B7]. intros a b [X1 X2]. split; [exact X1|]. pose proof (sb_next _ _ _ SB). lia.
Qed.

(* the content of a template *)
Lemma content_fresh h d g : inv F h -> d < hnext h -> g < hnext h -> vK h d = KTemplate -> vK h g = KFragment -> vP h g = None -> kidl h g = [] ->
  (forall x, vT h x <> Some g) -> ~ abv (vP h) g d -> vT h d <> None ->
  inv F (set_par (set_tcon h d (Some g)) g (Some d)).
Proof.
  intros I Hd Hg Kd Kg Pg Cg Tg NA Td. set (h' := set_par (set_tcon h d (Some g)) g (Some d)).
  assert (DG : d <> g) by congruence.
  assert (Cd : cell_at h' d = with_tcon (Some g) (cell_at h d)).
  { unfold h', set_par, set_tcon. rewrite cell_set. assert (d =? g = false) as -> by (apply Nat.eqb_neq; exact DG). rewrite cell_set, Nat.eqb_refl. reflexivity. }
  assert (Cg' : cell_at h' g = with_par (Some d) (cell_at h g)).
  { unfold h', set_par. rewrite cell_set, Nat.eqb_refl. f_equal. unfold set_tcon. rewrite cell_set. assert (g =? d = false) as -> by (apply Nat.eqb_neq; congruence). reflexivity. }
  assert (Co : forall y, y <> d -> y <> g -> cell_at h' y = cell_at h y).
  { intros y H1 H2. unfold h', set_par, set_tcon. rewrite cell_set. assert (y =? g = false) as -> by (apply Nat.eqb_neq; exact H2). rewrite cell_set. assert (y =? d = false) as -> by (apply Nat.eqb_neq; exact H1). reflexivity. }
  constructor.
  - eapply wf_of; [apply (wfv_content F _ _ _ _ _ d g (i_wf _ _ I)); auto| | | | |].
    + reflexivity.
    + intros x. unfold h'. rewrite vK_set_par. unfold vK, set_tcon. rewrite cell_set. destruct (x =? d) eqn:Q; [apply Nat.eqb_eq in Q; subst|]; reflexivity.
    + intros x. unfold h'. rewrite vP_set_par. unfold upd. destruct (x =? g); [reflexivity|]. unfold vP, set_tcon. rewrite cell_set. destruct (x =? d) eqn:Q; [apply Nat.eqb_eq in Q; subst|]; reflexivity.
    + intros x. unfold h'. rewrite kidl_set_par. unfold kidl, set_tcon. rewrite cell_set. destruct (x =? d) eqn:Q; [apply Nat.eqb_eq in Q; subst|]; reflexivity.
    + intros x. unfold h'. rewrite vT_set_par. unfold vT, set_tcon, upd. rewrite cell_set. destruct (x =? d); reflexivity.
  - intros x Hx. change (dnext h') with (dnext h). change (dict_at h') with (dict_at h). change (hnext h') with (hnext h) in Hx.
    pose proof (i_ok _ _ I x Hx) as O. destruct (Nat.eq_dec x d) as [-> | N1].
    { rewrite Cd. destruct O as [O1 O2]. unfold vK in Kd. unfold vT in Td. rewrite Kd in O2. split; [exact O1|]. cbn [kd with_tcon]. rewrite Kd. cbn [data kids attrs tcon ns with_tcon].
      destruct O2 as (X1 & X2 & X3 & X4). split; [exact X1|]. split; [exact X2|]. split; [exact X3|]. rewrite <- X4. split; intros _; [exact Td|discriminate]. }
    destruct (Nat.eq_dec x g) as [-> | N2]; [|rewrite Co by assumption; exact O].
    rewrite Cg'. eapply cell_ok_frame; [| | |exact O]; [destruct (cell_at h g); reflexivity|destruct (cell_at h g); reflexivity|reflexivity].
  - intros x Hx. unfold vK in Hx. destruct (Nat.eq_dec x d) as [-> | N1]; [rewrite Cd in *; apply (i_text _ _ I); exact Hx|].
    destruct (Nat.eq_dec x g) as [-> | N2]; [rewrite Cg' in *; apply (i_text _ _ I); exact Hx|]. rewrite Co in * by assumption. apply (i_text _ _ I); exact Hx.
Qed.

Definition content_pairs (s : nat) (og : option nat) : list (nat * nat) :=
  match vT h0 s, og with Some f, Some g => [(f, g)] | _, _ => [] end.

Lemma clone_step_spec h s d : inv F h -> grows h0 h -> s < n0 -> shellP d s h ->
  exists news og, fst (clone_step h s d) = (filter nontext (combine (kidl h0 s) news) ++ content_pairs s og)%list /\
    let h' := snd (clone_step h s d) in
    inv F h' /\ grows h0 h' /\ same_but (fun y => y = d) h h' /\ label_at h' d = label_at h d /\ attrs (cell_at h' d) = attrs (cell_at h d) /\ par (cell_at h' d) = par (cell_at h d) /\
    kids (cell_at h' d) = option_map (fun _ => news) (kids (cell_at h0 s)) /\ tcon (cell_at h' d) = og /\ (og = None <-> vT h0 s = None) /\
    Forall2 (fun s c => shellP c s h' /\ hnext h <= c) (kidl h0 s) news /\
    (forall f g, vT h0 s = Some f -> og = Some g -> shellP g f h' /\ hnext h <= g /\ vK h' g = KFragment).
Proof.
  intros I G Hs SP. pose proof (g_cells _ _ G s Hs) as ES. pose proof (g_next _ _ G) as GN.
  pose proof SP as [P1 P2 P3 P4 P5 P6 P7].
  assert (KD : vK h d = vK h0 s) by (exact (f_equal l_kind P6)).
  (* after the template part *)
  assert (ST : exists pushed h1 og, (match tcon (cell_at h s) with
    | Some f => if kind_eqb (kd (cell_at h s)) KTemplate && kind_eqb (kd (cell_at h d)) KTemplate then
        let '(g, h1) := clone_shallow h f None in let h2 := set_par (set_tcon h1 d (Some g)) g (Some d) in ([(f, g)], h2) else ([], h)
    | None => ([], h) end) = (pushed, h1) /\ pushed = content_pairs s og /\ inv F h1 /\ grows h0 h1 /\ same_but (fun y => y = d) h h1 /\
    cell_at h1 d = with_tcon og (cell_at h d) /\ (og = None <-> vT h0 s = None) /\
    (forall f g, vT h0 s = Some f -> og = Some g -> shellP g f h1 /\ hnext h <= g /\ vK h1 g = KFragment)).
  { rewrite ES. unfold content_pairs, vT. destruct (tcon (cell_at h0 s)) as [f|] eqn:ET.
    2: { exists [], h, None. split; [reflexivity|]. split; [reflexivity|]. split; [exact I|]. split; [exact G|]. split; [apply same_but_refl|]. split.
         - unfold vT in P5. rewrite ET in P5. destruct P5 as [_ P5]. specialize (P5 eq_refl). destruct (cell_at h d); cbn in *. subst. reflexivity.
         - split; [tauto|]. intros f g Q. discriminate Q. }
    destruct (w_tf _ _ _ _ _ _ (i_wf _ _ I0) s f ET) as [T1 [T2 T3]]. pose proof T3 as T3'. unfold vK in T3'. rewrite T3'. pose proof KD as KD'. rewrite T3 in KD'. unfold vK in KD'. rewrite KD'. cbn [kind_eqb andb].
    destruct (clone_shallow h f None) as [g h1] eqn:E1.
    pose proof (shellP_of h f (g, h1) G T2 I E1) as SG. cbn [fst snd] in SG.
    assert (S : shell F h f (cloned_attrs h f None) (g, h1)). { rewrite <- E1. apply clone_shallow_spec; [exact I|lia]. }
    destruct S as [A1 A2 A3 A4 A5 A6 A7 A8 A9 A10]. cbn [fst snd] in *.
    assert (Kg : vK h1 g = KFragment). { pose proof (f_equal l_kind (p_label _ _ _ SG)) as Q. change (vK h1 g = vK h0 f) in Q. congruence. }
    pose proof (g_cells _ _ A2 d P2) as ED.
    assert (DG : d <> g) by lia.
    assert (I2 : inv F (set_par (set_tcon h1 d (Some g)) g (Some d))).
    { apply content_fresh; auto.
      - pose proof (g_next _ _ A2). lia.
      - unfold vK. rewrite ED. exact KD'.
      - intros x Q. destruct (Nat.lt_ge_cases x (hnext h)) as [L | L].
        + unfold vT in Q. rewrite (g_cells _ _ A2) in Q by exact L. destruct (w_tf _ _ _ _ _ _ (i_wf _ _ I) x g Q) as [_ [Z _]]. lia.
        + (* a node made by the shallow clone of a fragment *)
          destruct (Nat.eq_dec x g) as [-> | NX].
          * pose proof (w_tf _ _ _ _ _ _ (i_wf _ _ A1) g g Q) as [_ [_ Z]]. congruence.
          * assert (GX : vP h1 g = Some x \/ True) by (right; exact Logic.I). clear GX.
            (* the shallow clone of a fragment makes one cell *)
            assert (HN : hnext h1 = S (hnext h)).
            { unfold clone_shallow in E1. change (kd (cell_at h f)) with (vK h f) in E1. assert (KF : vK h f = KFragment) by (unfold vK; rewrite (g_cells _ _ G f T2); exact T1).
              rewrite KF in E1. change h1 with (snd (g, h1)). rewrite <- E1. reflexivity. }
            destruct (w_out _ _ _ _ _ _ (i_wf _ _ A1) x) as [_ [_ Z]]; [|congruence]. lia.
      - intros A. apply (abv_lt _ (hnext h)) in A; [lia| |exact P2]. intros y p Hy Hp. unfold vP in Hp. rewrite (g_cells _ _ A2) in Hp by exact Hy.
        apply (out_range _ _ _ _ _ _ (i_wf _ _ I)) in Hp. lia.
      - unfold vT. rewrite ED. change (vT h d <> None). rewrite P5. unfold vT. congruence. }
    set (h2 := set_par (set_tcon h1 d (Some g)) g (Some d)) in *.
    assert (Cd : cell_at h2 d = with_tcon (Some g) (cell_at h d)).
    { unfold h2, set_par, set_tcon. rewrite cell_set. assert (d =? g = false) as -> by (apply Nat.eqb_neq; exact DG). rewrite cell_set, Nat.eqb_refl, ED. reflexivity. }
    assert (Cg' : cell_at h2 g = with_par (Some d) (cell_at h1 g)).
    { unfold h2, set_par. rewrite cell_set, Nat.eqb_refl. f_equal. unfold set_tcon. rewrite cell_set. assert (g =? d = false) as -> by (apply Nat.eqb_neq; congruence). reflexivity. }
    assert (SB : same_but (fun y => y = d) h h2).
    { constructor.
      - apply (g_next _ _ A2).
      - apply (g_dnext _ _ A2).
      - intros y H1 H2. unfold h2, set_par, set_tcon. rewrite cell_set. assert (y =? g = false) as -> by (apply Nat.eqb_neq; lia). rewrite cell_set. assert (y =? d = false) as -> by (apply Nat.eqb_neq; exact H2). apply (g_cells _ _ A2). exact H1.
      - apply (g_dict _ _ A2). }
    exists [(f, g)], h2, (Some g). split; [reflexivity|]. split; [reflexivity|]. split; [exact I2|]. split; [eapply grows_same_but; [|exact G|exact SB]; intros y ->; exact P1|].
    split; [exact SB|]. split; [exact Cd|]. split; [split; intros Q; discriminate Q|].
    intros f' g' Q1 Q2. assert (f' = f) as -> by congruence. assert (g' = g) as -> by congruence. split; [|split; [exact A3|unfold vK; rewrite Cg'; exact Kg]].
    destruct SG as [Q3 Q4 Q5 Q6 Q7 Q8 Q9]. constructor; auto.
    - unfold kidl. rewrite Cg'. unfold kidl in Q5. destruct (cell_at h1 g); exact Q5.
    - rewrite Cg'. exact Q6.
    - unfold vT at 1. rewrite Cg'. exact Q7.
    - rewrite <- Q8. unfold label_at. rewrite Cg'. reflexivity.
    - rewrite Cg'. exact Q9. }
  destruct ST as [pushed [h1 [og [E1 [E2 [I1 [G1 [SB1 [C1 [OG PC]]]]]]]]]].
  unfold clone_step. cbv zeta. cbv zeta in E1. rewrite E1.
  assert (KS : kidl h1 s = kidl h0 s) by (unfold kidl; rewrite (g_cells _ _ G1 s Hs); reflexivity). rewrite KS.
  assert (L1 : label_at h1 d = label_at h d).
  { unfold label_at. rewrite C1. cbn. f_equal. destruct (attrs (cell_at h d)) as [e|] eqn:Ee; [|reflexivity]. cbn. f_equal. apply (sb_dict _ _ _ SB1). apply P7. reflexivity. }
  assert (K1 : kids (cell_at h1 d) = kids (cell_at h d)) by (rewrite C1; reflexivity).
  destruct (kidl h0 s) as [|c0 crest] eqn:EC.
  { exists [], og. cbn [fst snd combine filter app]. split; [exact E2|]. split; [exact I1|]. split; [exact G1|]. split; [exact SB1|]. split; [exact L1|]. split; [rewrite C1; reflexivity|].
    split; [rewrite C1; reflexivity|]. split.
    - rewrite K1. unfold kidl in P3. destruct (kids (cell_at h d)) as [l|] eqn:Q, (kids (cell_at h0 s)) eqn:Q2; cbn; try reflexivity; [subst; reflexivity| |]; exfalso.
      + destruct P4 as [_ P4]. specialize (P4 eq_refl). discriminate P4.
      + destruct P4 as [P4 _]. specialize (P4 eq_refl). discriminate P4.
    - split; [rewrite C1; reflexivity|]. split; [exact OG|]. split; [constructor|]. exact PC. }
  assert (Kd : kids (cell_at h1 d) <> None). { rewrite K1. rewrite P4. unfold kidl in EC. destruct (kids (cell_at h0 s)); [discriminate|discriminate EC]. }
  destruct (kids (cell_at h1 d)) as [l1|] eqn:EKd; [|contradiction].
  rewrite <- EKd in K1.
  assert (LT : d < hnext h1) by (pose proof (sb_next _ _ _ SB1); lia).
  assert (NT : vK h1 d <> KText).
  { intros Q. assert (vK h0 s = KText) as Z by (rewrite <- KD; unfold vK in *; rewrite C1 in Q; exact Q).
    pose proof (i_text _ _ I0 s Z) as Z2. unfold kidl in EC. rewrite Z2 in EC. discriminate EC. }
  destruct (clone_children_spec (c0 :: crest) h1 d I1 G1 P1 LT ltac:(rewrite EKd; discriminate) NT) as [news [N1 N2]].
  { intros c Hc. rewrite <- EC in Hc. split; [apply (out_range _ _ _ _ _ _ (i_wf _ _ I0)) in Hc; apply Hc|]. apply (w_nf _ _ _ _ _ _ (i_wf _ _ I0) s c Hc). }
  exists news, og. destruct (clone_children h1 d (c0 :: crest)) as [pending h2] eqn:E4. cbn [fst snd] in *.
  destruct N2 as [B1 [B2 [B3 [B4 [B5 [B6 B7]]]]]]. split; [rewrite N1, E2; reflexivity|]. split; [exact B1|]. split; [exact B2|].
  assert (SB : same_but (fun y => y = d) h h2) by (eapply same_but_trans; eassumption). split; [exact SB|].
  assert (AT : attrs (cell_at h2 d) = attrs (cell_at h1 d)). { apply (f_equal attrs) in B4. exact B4. }
  split; [|split; [|split; [|split; [|split; [|split; [|split]]]]]].
  - rewrite <- L1. apply core_label; [exact B4|]. intros e He. apply (sb_dict _ _ _ B3). rewrite C1 in He. cbn [attrs with_tcon] in He. apply P7 in He. pose proof (sb_dnext _ _ _ SB1). lia.
  - rewrite AT, C1. reflexivity.
  - rewrite B5, C1. reflexivity.
  - rewrite B6. assert (kidl h1 d = []) as -> by (unfold kidl; rewrite K1; unfold kidl in P3; destruct (kids (cell_at h d)); [exact P3|reflexivity]).
    cbn [app]. unfold kidl in EC. destruct (kids (cell_at h0 s)); [reflexivity|discriminate EC].
  - apply (f_equal tcon) in B4. cbn in B4. rewrite B4, C1. reflexivity.
  - exact OG.
  - eapply Forall2_imp; [|exact B7]. intros a b [X1 X2]. split; [exact X1|]. pose proof (sb_next _ _ _ SB1). lia.
  - intros f g Q1 Q2. destruct (PC f g Q1 Q2) as [Q3 [Q4 Q5]]. split; [|split; [exact Q4|]].
    + eapply shellP_same; [exact B3| |exact Q3]. cbn. lia.
    + unfold vK. rewrite (sb_cells _ _ _ B3); [exact Q5|apply (p_hi _ _ _ Q3)|cbn; lia].
Qed.

Definition OldQ (y : nat) := y < n0.
Definition Any (_ : nat) := True.
Definition NewR (h : heap) (e : nat) := m0 <= e < dnext h.
Definition NewQ (d : nat) (h h' : heap) (y : nat) := y = d \/ hnext h <= y < hnext h'.

Definition goes (t : tree) : Prop := forall s h d, inv F h -> grows h0 h -> denotes h0 OldQ Any s t -> shellP d s h ->
  exists k h', (forall fuel rest, clone_loop (k + fuel) h ((s, d) :: rest) = clone_loop fuel h' rest) /\ inv F h' /\ grows h0 h' /\
    same_but (fun y => y = d) h h' /\ par (cell_at h' d) = par (cell_at h d) /\ denotes h' (NewQ d h h') (NewR h') d t.

Lemma goes_list : forall ps ts, Forall goes ts -> forall h, inv F h -> grows h0 h ->
  Forall2 (fun p t => denotes h0 OldQ Any (fst p) t /\ shellP (snd p) (fst p) h) ps ts -> NoDup (map snd ps) ->
  exists k h', (forall fuel rest, clone_loop (k + fuel) h (filter nontext ps ++ rest) = clone_loop fuel h' rest) /\ inv F h' /\ grows h0 h' /\
    same_but (fun y => In y (map snd ps)) h h' /\ Forall2 (fun p t => denotes h' (NewQ (snd p) h h') (NewR h') (snd p) t) ps ts.
Proof.
  induction ps as [|[s d] ps IH]; intros ts FG h I G F2 ND.
  - inversion F2; subst. exists 0, h. split; [reflexivity|]. split; [exact I|]. split; [exact G|]. split; [apply same_but_refl|constructor].
  - inversion F2 as [|? t ? ts' [D1 S1] F2']; subst. inversion FG as [|? ? G1 G2]; subst. cbn [map snd fst] in *. inversion ND as [|? ? ND1 ND2]; subst.
    assert (HEAD : exists k h1, (forall fuel rest, clone_loop (k + fuel) h ((if nontext (s, d) then [(s, d)] else []) ++ rest) = clone_loop fuel h1 rest) /\ inv F h1 /\ grows h0 h1 /\
      same_but (fun y => y = d) h h1 /\ denotes h1 (NewQ d h h1) (NewR h1) d t).
    { destruct (nontext (s, d)) eqn:NT.
      - destruct (G1 s h d I G D1 S1) as [k [h1 [A1 [A2 [A3 [A4 [_ A5]]]]]]]. exists k, h1. auto.
      - exists 0, h. split; [reflexivity|]. split; [exact I|]. split; [exact G|]. split; [apply same_but_refl|].
        unfold nontext in NT. cbn [fst] in NT. apply negb_false_iff in NT. apply kind_eqb_eq in NT.
        destruct S1 as [Q1 Q2 Q3 Q4 Q5 Q6 Q7]. destruct t as [l ch tc]. apply denotes_unfold in D1. apply denotes_unfold.
        destruct D1 as [E1 [E2 [E3 [E4 E5]]]]. split; [left; reflexivity|]. split; [intros e He; apply Q7; exact He|]. split; [congruence|].
        pose proof (i_text _ _ I0 s NT) as KT. rewrite KT in E4.
        pose proof (i_ok _ _ I0 s E1) as [_ OK]. rewrite NT in OK. destruct OK as (_ & _ & _ & _ & OT & _). rewrite OT in E5.
        assert (KD : kids (cell_at h d) = Some []).
        { rewrite KT in Q4. unfold kidl in Q3. destruct (kids (cell_at h d)); [subst; reflexivity|]. destruct Q4 as [Q4 _]. discriminate (Q4 eq_refl). }
        assert (TD : tcon (cell_at h d) = None). { apply Q5. exact OT. }
        rewrite KD, TD. split; [|exact E5]. destruct ch as [ts|]; [|contradiction]. inversion E4; subst. constructor. }
    destruct HEAD as [k1 [h1 [A1 [A2 [A3 [A4 A5]]]]]].
    assert (F2'' : Forall2 (fun p t => denotes h0 OldQ Any (fst p) t /\ shellP (snd p) (fst p) h1) ps ts').
    { clear - F2' ND1 A4. revert ND1. induction F2' as [|p t ps ts' [X1 X2] F2 IHF]; intros ND1; constructor.
      - split; [exact X1|]. eapply shellP_same; [exact A4| |exact X2]. cbn. intros Q. apply ND1. left; exact Q.
      - apply IHF. intros Q; apply ND1; right; exact Q. }
    destruct (IH ts' G2 h1 A2 A3 F2'' ND2) as [k2 [h2 [B1 [B2 [B3 [B4 B5]]]]]].
    exists (k1 + k2), h2. pose proof (sb_next _ _ _ A4) as L1. pose proof (sb_dnext _ _ _ A4) as L2. pose proof (sb_next _ _ _ B4) as L3. pose proof (sb_dnext _ _ _ B4) as L4.
    split; [|split; [exact B2|split; [exact B3|split]]].
    + intros fuel rest. cbn [filter].
      replace ((if nontext (s, d) then (s, d) :: filter nontext ps else filter nontext ps) ++ rest)%list with ((if nontext (s, d) then [(s, d)] else []) ++ (filter nontext ps ++ rest))%list by (destruct (nontext (s, d)); reflexivity).
      rewrite <- Nat.add_assoc, A1. apply B1.
    + eapply same_but_trans; [eapply same_but_weaken; [|exact A4]; cbn; intros y _ ->; left; reflexivity|eapply same_but_weaken; [|exact B4]; cbn; intros y _ Q; right; exact Q].
    + constructor.
      * cbn [snd]. apply (denotes_mono h2 (NewQ d h h1) (NewR h1)).
        -- intros y [-> | Q]; [left; reflexivity|right; lia].
        -- intros e Q. unfold NewR in *. lia.
        -- apply (denotes_frame h1); [| |exact A5].
           ++ intros y [-> | Q].
              ** apply (sb_cells _ _ _ B4); [pose proof (p_hi _ _ _ S1); lia|exact ND1].
              ** apply (sb_cells _ _ _ B4); [lia|]. intros Z. clear - Z F2' Q. 
                 induction F2' as [|p t ps ts' [X1 X2] F2 IHF]; [destruct Z|]. destruct Z as [Z | Z]; [|auto]. pose proof (p_hi _ _ _ X2). lia.
           ++ intros e Q. apply (sb_dict _ _ _ B4). unfold NewR in Q. lia.
      * eapply Forall2_imp; [|exact B5]. intros p t' Q. eapply denotes_mono; [| |exact Q]; [|auto].
        intros y [-> | Z]; [left; reflexivity|right; lia].
Qed.

Lemma goes_all : forall t, goes t.
Proof.
  induction t as [l ch tc IHc IHt] using tree_ind2. intros s h d I G D SP.
  apply denotes_unfold in D. destruct D as [D1 [D2 [D3 [D4 D5]]]].
  destruct (clone_step_spec h s d I G D1 SP) as [news [og [E1 H]]]. destruct (clone_step h s d) as [pushed h1] eqn:ES. cbn [fst snd] in *.
  destruct H as [A1 [A2 [A3 [A4 [A4a [A5 [A6 [A7 [A8 [A9 A10]]]]]]]]]].
  set (ps := (combine (kidl h0 s) news ++ content_pairs s og)%list).
  assert (LN : List.length (kidl h0 s) = List.length news) by (eapply Forall2_length; exact A9).
  set (ts := (match ch with Some l => l | None => [] end ++ match tc with Some t => [t] | None => [] end)%list).
  assert (SND : map snd ps = (news ++ match vT h0 s, og with Some _, Some g => [g] | _, _ => [] end)%list).
  { unfold ps. rewrite map_app. f_equal.
    - clear - LN. revert news LN. induction (kidl h0 s); intros [|n news] L; cbn in *; try lia; [reflexivity|]. f_equal. apply IHl. lia.
    - unfold content_pairs. destruct (vT h0 s), og; reflexivity. }
  assert (FT : filter nontext ps = pushed).
  { rewrite E1. unfold ps. rewrite filter_app. f_equal. unfold content_pairs. destruct (vT h0 s) as [f|] eqn:Ef, og as [g|]; try reflexivity.
    cbn [filter]. unfold nontext. cbn [fst]. destruct (w_tf _ _ _ _ _ _ (i_wf _ _ I0) s f Ef) as [Kf _]. unfold vK in Kf. rewrite Kf. reflexivity. }
  assert (PS : Forall2 (fun p t => denotes h0 OldQ Any (fst p) t /\ shellP (snd p) (fst p) h1) ps ts).
  { unfold ps, ts. apply Forall2_app.
    - unfold kidl in *. destruct (kids (cell_at h0 s)) as [ks|], ch as [cts|]; try contradiction.
      + clear - D4 A9. revert news A9. induction D4 as [|k t ks cts X1 X2 IHF]; intros news A9; inversion A9 as [|? ? ? ? [Y1 Y2] Y3]; subst; constructor; [cbn; auto|apply IHF; exact Y3].
      + inversion A9; subst. constructor.
    - unfold content_pairs, vT. destruct (tcon (cell_at h0 s)) as [f|] eqn:Ef, tc as [t|]; try contradiction.
      + destruct og as [g|]; [|destruct A8 as [A8 _]; specialize (A8 eq_refl); unfold vT in A8; congruence].
        constructor; [|constructor]. cbn. split; [exact D5|]. apply (A10 f g Ef eq_refl).
      + destruct og; constructor. }
  assert (NDs : NoDup (map snd ps)).
  { rewrite SND. assert (NDn : NoDup news). { pose proof (w_nd _ _ _ _ _ _ (i_wf _ _ A1) d) as Q. unfold kidl in Q. rewrite A6 in Q. destruct (kids (cell_at h0 s)) eqn:KK; [exact Q|].
      unfold kidl in A9. rewrite KK in A9. inversion A9. constructor. }
    destruct (vT h0 s) as [f|] eqn:Ef, og as [g|]; try (rewrite app_nil_r; exact NDn).
    rewrite <- (app_nil_r [g]). apply NoDup_app3; [rewrite app_nil_r; exact NDn|constructor; [intros []|constructor]|]. intros c [<- | []]. rewrite app_nil_r. intros Q.
    destruct (A10 f g eq_refl eq_refl) as [_ [_ Kg]]. assert (In g (kidl h1 d)). { unfold kidl. rewrite A6. destruct (kids (cell_at h0 s)) eqn:KK; [exact Q|]. unfold kidl in A9. rewrite KK in A9. inversion A9; subst. destruct Q. }
    apply (w_nf _ _ _ _ _ _ (i_wf _ _ A1)) in H. contradiction. }
  assert (GS : Forall goes ts). { unfold ts. apply Forall_app. split; [destruct ch; [exact IHc|constructor]|destruct tc; [constructor; [exact IHt|constructor]|constructor]]. }
  destruct (goes_list ps ts GS h1 A1 A2 PS NDs) as [k [h2 [B1 [B2 [B3 [B4 B5]]]]]]. rewrite FT in B1.
  assert (LO : forall y, In y (map snd ps) -> hnext h <= y).
  { rewrite SND. intros y Q. apply in_app_or in Q. destruct Q as [Q | Q].
    - clear - Q A9. induction A9 as [|? ? ? ? [X1 X2] X3 IHF]; [destruct Q|]. destruct Q as [<- | Q]; auto.
    - destruct (vT h0 s) as [f|] eqn:Ef, og as [g|]; try contradiction. destruct Q as [<- | []]. apply (A10 f g eq_refl eq_refl). }
  pose proof (p_hi _ _ _ SP) as Hd.
  assert (ND : ~ In d (map snd ps)) by (intros Q; apply LO in Q; lia).
  assert (L1 := sb_next _ _ _ A3). assert (L2 := sb_dnext _ _ _ A3). assert (L3 := sb_next _ _ _ B4). assert (L4 := sb_dnext _ _ _ B4).
  assert (Ed : cell_at h2 d = cell_at h1 d). { apply (sb_cells _ _ _ B4); [lia|exact ND]. }
  exists (S k), h2. split; [|split; [exact B2|split; [exact B3|split; [|split]]]].
  - intros fuel rest. cbn [clone_loop plus]. rewrite ES. apply B1.
  - constructor.
    + lia.
    + lia.
    + intros y Hy Hyd. rewrite (sb_cells _ _ _ B4); [apply (sb_cells _ _ _ A3); [exact Hy|exact Hyd]|lia|]. intros Q. apply LO in Q. lia.
    + intros e He. rewrite (sb_dict _ _ _ B4) by lia. apply (sb_dict _ _ _ A3). exact He.
  - rewrite Ed. exact A5.
  - apply denotes_unfold. rewrite Ed. split; [left; reflexivity|]. split.
    + intros e He. rewrite A4a in He. apply (p_attrs _ _ _ SP) in He. unfold NewR. lia.
    + assert (W : forall p t, In p ps -> denotes h2 (NewQ (snd p) h1 h2) (NewR h2) (snd p) t -> denotes h2 (NewQ d h h2) (NewR h2) (snd p) t).
      { intros p t Hp. apply denotes_mono; [|auto]. assert (Q : In (snd p) (map snd ps)) by (apply in_map; exact Hp). pose proof (LO _ Q) as Q1.
        assert (Q2 : snd p < hnext h1).
        { clear - PS Hp. induction PS as [|? ? ? ? [X1 X2] X3 IHF]; [destruct Hp|]. destruct Hp as [<- | Hp]; [apply (p_hi _ _ _ X2)|auto]. }
        intros y [-> | Z]; right; lia. }
      assert (B6 : Forall2 (fun p t => denotes h2 (NewQ d h h2) (NewR h2) (snd p) t) ps ts).
      { clear - B5 W. induction B5; constructor; [apply W; [left; reflexivity|assumption]|]. apply IHB5. intros p t Hp. apply W. right; exact Hp. }
      unfold ps, ts in B6. apply Forall2_app_inv_len in B6.
      2: { unfold kidl in *. destruct (kids (cell_at h0 s)) as [ks|], ch as [cts|]; try contradiction.
           - rewrite combine_length. pose proof (Forall2_length _ _ _ D4). lia.
           - reflexivity. }
      destruct B6 as [B6 B7]. split; [|split].
      * assert (L : label_at h2 d = label_at h0 s). { rewrite <- (p_label _ _ _ SP), <- A4. unfold label_at. rewrite Ed. f_equal.
          destruct (attrs (cell_at h1 d)) as [e|] eqn:Ee; [|reflexivity]. cbn. f_equal. apply (sb_dict _ _ _ B4). assert (Q : attrs (cell_at h d) = Some e) by congruence. apply (p_attrs _ _ _ SP) in Q. lia. }
        rewrite L. exact D3.
      * rewrite A6. unfold kidl in *. destruct (kids (cell_at h0 s)) as [ks|], ch as [cts|]; try contradiction; [|exact Logic.I]. cbn [option_map].
        clear - B6 LN. revert ks LN B6. revert cts. induction news as [|n news IHn]; intros cts [|k ks] L B6; cbn in *; try lia; inversion B6; subst; constructor; [assumption|]. eapply IHn; [|eassumption]. lia.
      * rewrite A7. unfold content_pairs in B7. change (vT h0 s) with (tcon (cell_at h0 s)) in B7, A8. destruct (tcon (cell_at h0 s)) as [f|], tc as [t|]; try contradiction.
        -- destruct og as [g|]; [|destruct A8 as [A8 _]; specialize (A8 eq_refl); discriminate A8]. inversion B7; subst. assumption.
        -- destruct og as [g|]; [destruct A8 as [_ A8]; specialize (A8 eq_refl); discriminate A8|]. exact Logic.I.
Qed.

End Clone.
