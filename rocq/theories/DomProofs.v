(* Proofs about the editing methods of DomModel. *)
From Verif Require Import Str SerializerModel SanModel DomModel DomSpec DomViewProofs.
From Coq Require Import Lia Relations.
Open Scope nat_scope.

Definition vK (h : heap) x := kd (cell_at h x).
Definition vP (h : heap) x := par (cell_at h x).
Definition vT (h : heap) x := tcon (cell_at h x).
Definition wf (F : Prop) (h : heap) := wfv F (hnext h) (vK h) (vP h) (kidl h) (vT h).

Definition core (c : cell) : cell := with_par None (with_kids None c).
(* nothing changes but parents and contents of children lists *)
Record frame (h h' : heap) : Prop := {
  fr_next : hnext h' = hnext h; fr_dnext : dnext h' = dnext h; fr_dict : dict_at h' = dict_at h;
  fr_core : forall x, core (cell_at h' x) = core (cell_at h x);
  fr_kids : forall x, kids (cell_at h' x) = None <-> kids (cell_at h x) = None;
  fr_text : forall x, kd (cell_at h x) = KText -> kids (cell_at h' x) = kids (cell_at h x) }.
Lemma core_kd c c' : core c = core c' -> kd c = kd c'. Proof. destruct c, c'. unfold core, with_par, with_kids; cbn. congruence. Qed.
Lemma core_tcon c c' : core c = core c' -> tcon c = tcon c'. Proof. destruct c, c'. unfold core, with_par, with_kids; cbn. congruence. Qed.
Lemma frame_refl h : frame h h. Proof. constructor; tauto. Qed.
Lemma frame_trans a b c : frame a b -> frame b c -> frame a c.
Proof.
  intros [A1 A2 A3 A4 A5 A6] [B1 B2 B3 B4 B5 B6]. constructor; try congruence; intros x.
  - rewrite B5; apply A5.
  - intros E. rewrite B6, A6; auto. rewrite (core_kd _ _ (A4 x)). exact E.
Qed.
Lemma cell_set h x c y : cell_at (set_cell h x c) y = if y =? x then c else cell_at h y.
Proof. reflexivity. Qed.
Lemma frame_set_par h x p : frame h (set_par h x p).
Proof.
  constructor; try reflexivity; intros y; unfold set_par; rewrite cell_set; destruct (y =? x) eqn:E; try tauto;
    apply Nat.eqb_eq in E; subst; destruct (cell_at h x); cbn; try reflexivity; tauto.
Qed.
Lemma frame_set_kids h x l : kids (cell_at h x) <> None -> kd (cell_at h x) <> KText -> frame h (set_kids h x l).
Proof.
  intros H1 H2. constructor; try reflexivity; intros y; unfold set_kids; rewrite cell_set; destruct (y =? x) eqn:E; try tauto;
    apply Nat.eqb_eq in E; subst; destruct (cell_at h x); cbn in *; try reflexivity; try contradiction.
  split; intros; [discriminate|contradiction].
Qed.
Lemma vP_set_par h x p y : vP (set_par h x p) y = upd (vP h) x p y.
Proof. unfold vP, set_par, upd. rewrite cell_set. destruct (y =? x) eqn:E; reflexivity. Qed.
Lemma vK_set_par h x p y : vK (set_par h x p) y = vK h y.
Proof. unfold vK, set_par. rewrite cell_set. destruct (y =? x) eqn:E; [apply Nat.eqb_eq in E; subst|]; reflexivity. Qed.
Lemma vT_set_par h x p y : vT (set_par h x p) y = vT h y.
Proof. unfold vT, set_par. rewrite cell_set. destruct (y =? x) eqn:E; [apply Nat.eqb_eq in E; subst|]; reflexivity. Qed.
Lemma kidl_set_par h x p y : kidl (set_par h x p) y = kidl h y.
Proof. unfold kidl, set_par. rewrite cell_set. destruct (y =? x) eqn:E; [apply Nat.eqb_eq in E; subst|]; reflexivity. Qed.
Lemma vP_set_kids h x l y : vP (set_kids h x l) y = vP h y.
Proof. unfold vP, set_kids. rewrite cell_set. destruct (y =? x) eqn:E; [apply Nat.eqb_eq in E; subst|]; reflexivity. Qed.
Lemma vK_set_kids h x l y : vK (set_kids h x l) y = vK h y.
Proof. unfold vK, set_kids. rewrite cell_set. destruct (y =? x) eqn:E; [apply Nat.eqb_eq in E; subst|]; reflexivity. Qed.
Lemma vT_set_kids h x l y : vT (set_kids h x l) y = vT h y.
Proof. unfold vT, set_kids. rewrite cell_set. destruct (y =? x) eqn:E; [apply Nat.eqb_eq in E; subst|]; reflexivity. Qed.
Lemma kidl_set_kids h x l y : kidl (set_kids h x l) y = upd (kidl h) x l y.
Proof. unfold kidl, set_kids, upd. rewrite cell_set. destruct (y =? x) eqn:E; reflexivity. Qed.
Lemma kidl_nil h x : kids (cell_at h x) = None -> kidl h x = [].
Proof. unfold kidl. intros ->. reflexivity. Qed.

(* lists *)
Lemma index_of_Some x l i : index_of x l = Some i -> exists a b, l = a ++ x :: b /\ List.length a = i /\ ~ In x a.
Proof.
  revert i. induction l as [|y t IH]; intros i H; [discriminate H|]. cbn [index_of] in H. destruct (y =? x) eqn:E.
  - apply Nat.eqb_eq in E. subst. injection H as <-. exists [], t. repeat split. intros [].
  - destruct (index_of x t) as [j|]; [|discriminate H]. cbn in H. injection H as <-. destruct (IH _ eq_refl) as [a [b [E1 [E2 E3]]]].
    exists (y :: a), b. subst. repeat split. intros [Q | Q]; [subst; rewrite Nat.eqb_refl in E; discriminate E|contradiction].
Qed.
Lemma index_of_None x l : index_of x l = None -> ~ In x l.
Proof.
  induction l as [|y t IH]; intros H; [intros []|]. cbn [index_of] in H. destruct (y =? x) eqn:E; [discriminate H|].
  destruct (index_of x t); [discriminate H|]. apply Nat.eqb_neq in E. intros [Q | Q]; [congruence|exact (IH eq_refl Q)].
Qed.
Lemma index_of_app x a b : ~ In x a -> index_of x (a ++ x :: b) = Some (List.length a).
Proof.
  induction a as [|y a IH]; intros H; cbn.
  - rewrite Nat.eqb_refl. reflexivity.
  - destruct (y =? x) eqn:E; [apply Nat.eqb_eq in E; subst; exfalso; apply H; left; reflexivity|].
    cbn [index_of] in IH. rewrite IH; [reflexivity|]. intros Q; apply H; right; exact Q.
Qed.
Notation rem := (remove Nat.eq_dec).
Lemma remove_app x a b : rem x (a ++ b) = rem x a ++ rem x b.
Proof. apply remove_app. Qed.
Lemma remove_notin x a : ~ In x a -> rem x a = a.
Proof. apply notin_remove. Qed.
Lemma remove_self x b : rem x (x :: b) = rem x b.
Proof. cbn. destruct (Nat.eq_dec x x); [reflexivity|contradiction]. Qed.
Lemma remove_head x y b : x <> y -> rem x (y :: b) = y :: rem x b.
Proof. cbn. intros H. destruct (Nat.eq_dec x y); [contradiction|reflexivity]. Qed.
Lemma firstn_len {A} (a b : list A) : firstn (List.length a) (a ++ b) = a.
Proof. rewrite firstn_app, Nat.sub_diag, firstn_all. cbn. apply app_nil_r. Qed.
Lemma skipn_len {A} (a b : list A) : skipn (List.length a) (a ++ b) = b.
Proof. rewrite skipn_app, Nat.sub_diag, skipn_all. reflexivity. Qed.
Lemma skipn_len_S {A} (a b : list A) x : skipn (S (List.length a)) (a ++ x :: b) = b.
Proof. replace (a ++ x :: b) with ((a ++ [x]) ++ b) by (rewrite <- app_assoc; reflexivity).
  replace (S (List.length a)) with (List.length (a ++ [x])) by (rewrite app_length; cbn; lia). apply skipn_len. Qed.
Lemma pop_index x l i : NoDup l -> index_of x l = Some i -> pop_at i l = rem x l.
Proof.
  intros ND H. destruct (index_of_Some _ _ _ H) as [a [b [-> [<- Ha]]]]. unfold pop_at. rewrite firstn_len, skipn_len_S.
  rewrite remove_app, remove_self, (remove_notin x a), (remove_notin x b); auto.
  apply NoDup_remove_2 in ND. intros Q; apply ND; apply in_or_app; right; exact Q.
Qed.
Lemma remove_in x l c : In c (rem x l) <-> In c l /\ c <> x.
Proof. split; [apply in_remove|intros [H1 H2]; apply in_in_remove; auto]. Qed.
Lemma remove_nodup x l : NoDup l -> NoDup (rem x l).
Proof.
  intros H; induction H; cbn; [constructor|]. destruct (Nat.eq_dec x x0); [assumption|]. constructor; [|assumption].
  rewrite remove_in. tauto.
Qed.

(* the ancestor walk *)
Lemma on_chain_spec h n node : forall s, depth (vP h) s n -> forall fuel, n + 2 <= fuel ->
  exists b, on_chain fuel h (Some s) node = Some b /\ (b = true <-> abv (vP h) node s).
Proof.
  induction n as [|n IH]; intros s D fuel L; (destruct fuel as [|fuel]; [lia|]); cbn [on_chain];
    (destruct (s =? node) eqn:E; [apply Nat.eqb_eq in E; subst; exists true; split; [reflexivity|split; [intros _; constructor|reflexivity]]|]);
    apply Nat.eqb_neq in E; inversion D as [z Hz | z p m Hz Hm]; subst.
  - unfold vP in Hz. rewrite Hz. destruct fuel as [|fuel]; [lia|]. exists false. split; [reflexivity|]. split; [intros Q; discriminate Q|].
    intros A. inversion A as [| ? ? q Hq]; subst; [contradiction|]. unfold vP in Hq. congruence.
  - destruct (IH p Hm fuel ltac:(lia)) as [b [B1 B2]]. pose proof Hz as H0'. unfold vP in Hz. rewrite Hz. exists b. split; [exact B1|].
    rewrite B2. split; [intros A; eapply abv_up; eauto|]. intros A. inversion A as [| ? ? q Hq Aq]; subst; [contradiction|]. assert (q = p) by congruence. subst. exact Aq.
Qed.
Lemma on_chain_ok F h s node : wf F h ->
  exists b, on_chain (S (S (hnext h))) h (Some s) node = Some b /\ (b = true <-> abv (vP h) node s).
Proof.
  intros W. destruct (rooted_depth _ _ (w_root _ _ _ _ _ _ W s)) as [n D].
  assert (n <= hnext h).
  { apply (depth_bound (vP h) s n (hnext h)); [| |exact D].
    - intros y Hy. apply (w_out _ _ _ _ _ _ W y Hy).
    - intros y p Hy. apply (out_range _ _ _ _ _ _ W) in Hy. apply Hy. }
  apply on_chain_spec with n; [exact D|lia].
Qed.

Lemma kind_eqb_eq a b : kind_eqb a b = true <-> a = b.
Proof. destruct a, b; cbn; split; intros H; try reflexivity; discriminate H. Qed.
Lemma kind_eqb_neq a b : kind_eqb a b = false <-> a <> b.
Proof. destruct (kind_eqb a b) eqn:E; split; intros H; try discriminate H; try (apply kind_eqb_eq in E; contradiction); try reflexivity.
  intros Q. apply kind_eqb_eq in Q. congruence. Qed.

(* a detached leaf is above nobody else *)
Lemma leaf_above F h node s : wf F h -> detached_leaf h node = true -> abv (vP h) node s -> s = node.
Proof.
  intros W D A. induction A as [|a x p Hp A IH]; [reflexivity|]. specialize (IH D). subst p. exfalso.
  unfold detached_leaf in D. destruct (par (cell_at h a)); [discriminate D|]. destruct (kidl h a) eqn:K; [|discriminate D].
  assert (Q : vK h x = KFragment \/ vK h x <> KFragment) by (destruct (vK h x); (left; reflexivity) || (right; discriminate)).
  destruct Q as [Q | Q].
  - destruct (w_ft _ _ _ _ _ _ W _ _ Hp Q) as [Q1 Q2]. unfold vK in Q1. rewrite Q1 in D. cbn in D. unfold vT in Q2.
    destruct (tcon (cell_at h a)); [discriminate D|]. apply Q2; reflexivity.
  - pose proof (w_pc _ _ _ _ _ _ W _ _ Hp Q) as I. rewrite K in I. destruct I.
Qed.

Record adopted (F : Prop) (h h' : heap) (self node : nat) (old : option nat * option nat) : Prop := {
  ad_above : ~ abv (vP h) node self;
  ad_frame : frame h h';
  ad_wf : wf F h';
  ad_par : vP h' node = None;
  ad_pars : forall y, y <> node -> vP h' y = vP h y;
  ad_kids : forall y, kidl h' y = rem node (kidl h y);
  ad_cells : forall y, y <> node -> vP h node <> Some y -> cell_at h' y = cell_at h y;
  ad_old : (exists p i, old = (Some p, Some i) /\ index_of node (kidl h p) = Some i) \/ (snd old = None /\ forall p, ~ In node (kidl h p)) }.
Lemma wf_notin F h n : wf F h -> vP h n = None -> forall p, ~ In n (kidl h p).
Proof. intros W H p I. apply (w_cp _ _ _ _ _ _ W) in I. congruence. Qed.
Lemma wf_ext F h h' : hnext h = hnext h' -> (forall x, vK h x = vK h' x) -> (forall x, vP h x = vP h' x) -> (forall x, kidl h x = kidl h' x) ->
  (forall x, vT h x = vT h' x) -> wf F h -> wf F h'.
Proof. apply wfv_ext. Qed.
Lemma wf_of F N K P C T h' : wfv F N K P C T -> hnext h' = N -> (forall x, vK h' x = K x) -> (forall x, vP h' x = P x) ->
  (forall x, kidl h' x = C x) -> (forall x, vT h' x = T x) -> wf F h'.
Proof. intros W E1 E2 E3 E4 E5. eapply wfv_ext; [| | | | |exact W]; auto. Qed.

Lemma adopt_spec F h self node : wf F h -> node < hnext h ->
  (vK h node = KFragment -> F -> forall x, vT h x <> Some node) ->
  (forall x, vK h x = KText -> kidl h x = []) ->
  match adopt_child h self node with
  | Loop => False
  | Exn (ValueError _) h' => h' = h /\ abv (vP h) node self
  | Exn _ _ => False
  | Ret old h' => adopted F h h' self node old
  end.
Proof.
  intros W Hn HF HT. unfold adopt_child. destruct (node =? self) eqn:E0.
  { apply Nat.eqb_eq in E0. subst. split; [reflexivity|constructor]. }
  apply Nat.eqb_neq in E0. destruct (detached_leaf h node) eqn:DL.
  { assert (PN : vP h node = None). { unfold detached_leaf in DL. unfold vP. destruct (par (cell_at h node)); [discriminate DL|reflexivity]. }
    pose proof (wf_notin _ _ _ W PN) as NI. constructor; auto.
    - intros A. apply (leaf_above _ _ _ _ W DL) in A. congruence.
    - apply frame_refl.
    - intros y. symmetry. apply remove_notin. apply NI. }
  destruct (on_chain_ok _ _ self node W) as [b [-> Hb]]. destruct b.
  { split; [reflexivity|]. apply Hb. reflexivity. }
  assert (NA : ~ abv (vP h) node self). { intros A. apply Hb in A. discriminate A. } clear Hb.
  destruct (par (cell_at h node)) as [p|] eqn:EP.
  2: { constructor; auto; cbn [snd].
    - apply frame_set_par.
    - eapply wf_ext; [| | | | |exact W]; [reflexivity|intros; symmetry; apply vK_set_par| |intros; symmetry; apply kidl_set_par|intros; symmetry; apply vT_set_par].
      intros x. rewrite vP_set_par. unfold upd. destruct (x =? node) eqn:E; [apply Nat.eqb_eq in E; subst; exact EP|reflexivity].
    - rewrite vP_set_par. apply upd_same.
    - intros y Hy. rewrite vP_set_par. apply upd_other; assumption.
    - intros y. rewrite kidl_set_par. symmetry. apply remove_notin. apply (wf_notin _ _ _ W EP).
    - intros y Hy _. unfold set_par. rewrite cell_set. apply Nat.eqb_neq in Hy. rewrite Hy. reflexivity.
    - right. split; [reflexivity|]. apply (wf_notin _ _ _ W EP). }
  assert (FR : vK h node = KFragment \/ vK h node <> KFragment) by (destruct (vK h node); (left; reflexivity) || (right; discriminate)).
  destruct FR as [FR | FR].
  - assert (NI : forall q, ~ In node (kidl h q)) by (intros q I; exact (w_nf _ _ _ _ _ _ W _ _ I FR)).
    assert (A : adopted F h (set_par h node None) self node (Some p, None)).
    { constructor; auto; cbn [snd].
      - apply frame_set_par.
      - eapply wf_of; [exact (wfv_unlink_fragment _ _ _ _ _ _ node W FR (HF FR))| | | | |];
          [reflexivity|intros; apply vK_set_par|intros; apply vP_set_par|intros; apply kidl_set_par|intros; apply vT_set_par].
      - rewrite vP_set_par. apply upd_same.
      - intros y Hy. rewrite vP_set_par. apply upd_other; assumption.
      - intros y. rewrite kidl_set_par. symmetry. apply remove_notin. apply NI.
      - intros y Hy _. unfold set_par. rewrite cell_set. apply Nat.eqb_neq in Hy. rewrite Hy. reflexivity. }
    destruct (kids (cell_at h p)) as [l|] eqn:EK; [|exact A].
    destruct (index_of node l) as [i|] eqn:EI; [|exact A].
    exfalso. destruct (index_of_Some _ _ _ EI) as [a [b [Q _]]]. apply (NI p). unfold kidl. rewrite EK, Q. apply in_or_app. right; left; reflexivity.
  - pose proof (w_pc _ _ _ _ _ _ W _ _ EP FR) as IN. destruct (kids (cell_at h p)) as [l|] eqn:EK.
    2: { rewrite (kidl_nil _ _ EK) in IN. destruct IN. }
    assert (KL : kidl h p = l) by (unfold kidl; rewrite EK; reflexivity). rewrite KL in IN.
    destruct (index_of node l) as [i|] eqn:EI; [|exfalso; exact (index_of_None _ _ EI IN)].
    pose proof (w_nd _ _ _ _ _ _ W p) as ND. rewrite KL in ND. rewrite (pop_index _ _ _ ND EI).
    assert (PT : vK h p <> KText). { intros Q. apply HT in Q. rewrite Q in KL. subst l. destruct IN. }
    assert (KE : forall y, kidl (set_par (set_kids h p (rem node l)) node None) y = upd (kidl h) p (rem node l) y).
    { intros y. rewrite kidl_set_par. apply kidl_set_kids. }
    assert (PE : forall y, vP (set_par (set_kids h p (rem node l)) node None) y = upd (vP h) node None y).
    { intros y. rewrite vP_set_par. unfold upd. destruct (y =? node); [reflexivity|]. apply vP_set_kids. }
    constructor; auto; cbn [snd].
    + eapply frame_trans; [|apply frame_set_par]. apply frame_set_kids; [rewrite EK; discriminate|exact PT].
    + eapply wf_of; [exact (wfv_detach _ _ _ _ _ _ node p (rem node l) W EP FR (remove_nodup _ _ ND) ltac:(intros c; rewrite remove_in, KL; tauto))| | | | |];
        [reflexivity|intros x; rewrite vK_set_par, vK_set_kids; reflexivity|exact PE|exact KE|intros x; rewrite vT_set_par, vT_set_kids; reflexivity].
    + rewrite PE. apply upd_same.
    + intros y Hy. rewrite PE. apply upd_other; assumption.
    + intros y. rewrite KE. upd_case y p; [rewrite KL; reflexivity|]. symmetry. apply remove_notin. intros I.
      apply (w_cp _ _ _ _ _ _ W) in I. unfold vP in I. congruence.
    + intros y Hy Hy2. unfold set_par, set_kids. rewrite cell_set. pose proof Hy as Hy'. apply Nat.eqb_neq in Hy'. rewrite Hy'. rewrite cell_set.
      destruct (y =? p) eqn:Ey; [|reflexivity]. apply Nat.eqb_eq in Ey. subst. unfold vP in Hy2. congruence.
    + left. exists p, i. rewrite KL. auto.
Qed.
