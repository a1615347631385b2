(* From the invariant to the statements of DomSpec. *)
From Verif Require Import Str SerializerModel SanModel DomModel DomSpec DomViewProofs DomProofs DomOpProofs DomReplaceProofs DomInvProofs DomCloneProofs DomCloneLoop.
From Coq Require Import Lia Relations Wf_nat.
Open Scope nat_scope.

Lemma inv_empty : inv True empty_heap.
Proof.
  constructor.
  - constructor; cbn; auto; try (intros; contradiction); try (intros; discriminate).
    + intros x. constructor.
    + intros x. apply rt_root. reflexivity.
  - intros x Hx. cbn in Hx. lia.
  - intros x Hx. reflexivity.
Qed.
Lemma inv_weaken (F G : Prop) h : (G -> F) -> inv F h -> inv G h.
Proof. intros H [[a b c d e f g i j] I2 I3]. constructor; [constructor; auto|exact I2|exact I3]. Qed.

(* any clone that returns *)
Lemma clone_loop_inv F h0 : inv F h0 -> forall fuel h stack h', inv F h -> grows h0 h ->
  Forall (fun p => fst p < hnext h0 /\ shellP h0 (snd p) (fst p) h) stack -> NoDup (map snd stack) -> clone_loop fuel h stack = Some h' -> inv F h' /\ grows h0 h'.
Proof.
  intros I0. induction fuel as [|k IH]; intros h stack h' I G FS ND E; [discriminate E|]. cbn [clone_loop] in E. destruct stack as [|[s d] rest].
  { injection E as <-. auto. }
  inversion FS as [|? ? [S1 S2] FR]; subst. cbn [map fst snd] in *. inversion ND as [|? ? N1 N2]; subst.
  destruct (clone_step_spec F h0 I0 h s d I G S1 S2) as [news [og [E1 H]]]. destruct (clone_step h s d) as [pushed h1]. cbn [fst snd] in *.
  destruct H as [A1 [A2 [A3 [A4 [A4a [A5 [A6 [A7 [A8 [A9 A10]]]]]]]]]].
  assert (PF : Forall (fun p => fst p < hnext h0 /\ shellP h0 (snd p) (fst p) h1 /\ hnext h <= snd p) pushed).
  { rewrite E1. apply Forall_app. split.
    - assert (KI : forall c, In c (kidl h0 s) -> c < hnext h0) by (intros c Hc; apply (out_range _ _ _ _ _ _ (i_wf _ _ I0)) in Hc; apply Hc).
      clear - A9 KI. induction A9 as [|a b l m [X1 X2] X3 IHF]; [constructor|]. cbn [combine filter].
      assert (R : Forall (fun p => fst p < hnext h0 /\ shellP h0 (snd p) (fst p) h1 /\ hnext h <= snd p) (filter (nontext h0) (combine l m))) by (apply IHF; intros c Hc; apply KI; right; exact Hc).
      destruct (nontext h0 (a, b)); [constructor; [|exact R]|exact R]. cbn. split; [apply KI; left; reflexivity|auto].
    - unfold content_pairs. destruct (vT h0 s) as [f|] eqn:Ef, og as [g|]; try constructor; [|constructor]. cbn. destruct (A10 f g eq_refl eq_refl) as [Q1 [Q2 Q3]].
      split; [apply (w_tf _ _ _ _ _ _ (i_wf _ _ I0) s f Ef)|auto]. }
  assert (NP : NoDup (map snd pushed)).
  { rewrite E1, map_app.
    assert (NDn : NoDup news). { pose proof (w_nd _ _ _ _ _ _ (i_wf _ _ A1) d) as Q. unfold kidl in Q. rewrite A6 in Q. destruct (kids (cell_at h0 s)) eqn:KK; [exact Q|].
      unfold kidl in A9. rewrite KK in A9. inversion A9. constructor. }
    assert (IN : forall l m x, In x (map snd (filter (nontext h0) (combine l m))) -> In x m).
    { clear. induction l as [|a l IH]; intros [|b m] x H; cbn in H; try contradiction. destruct (nontext h0 (a, b)); [destruct H as [<- | H]; [left; reflexivity|right; eauto]|right; eauto]. }
    assert (NF : NoDup (map snd (filter (nontext h0) (combine (kidl h0 s) news)))).
    { clear - NDn IN. revert news NDn. induction (kidl h0 s) as [|a l IHl]; intros [|b m] NDn; cbn; try constructor. inversion NDn; subst.
      destruct (nontext h0 (a, b)); [constructor; [cbn; intros Q; apply IN in Q; contradiction|apply IHl; assumption]|apply IHl; assumption]. }
    unfold content_pairs. destruct (vT h0 s) as [f|] eqn:Ef, og as [g|]; cbn [map]; try (rewrite app_nil_r; exact NF). cbn [snd].
    rewrite <- (app_nil_r [g]). apply NoDup_app3; [rewrite app_nil_r; exact NF|constructor; [intros []|constructor]|]. intros c [<- | []]. rewrite app_nil_r. intros Q. apply IN in Q.
    destruct (A10 f g eq_refl eq_refl) as [_ [_ Kg]]. assert (In g (kidl h1 d)). { unfold kidl. rewrite A6. destruct (kids (cell_at h0 s)) eqn:KK; [exact Q|]. unfold kidl in A9. rewrite KK in A9. inversion A9; subst. destruct Q. }
    apply (w_nf _ _ _ _ _ _ (i_wf _ _ A1)) in H. contradiction. }
  apply (IH h1 (pushed ++ rest)%list h' A1 A2); [| |exact E].
  - apply Forall_app. split; [eapply Forall_impl; [|exact PF]; cbn; tauto|].
    clear - FR N1 A3. induction FR as [|p l [X1 X2] FR IHF]; constructor.
    + split; [exact X1|]. eapply shellP_same; [exact A3| |exact X2]. cbn. intros Q. apply N1. left; exact Q.
    + apply IHF. intros Q; apply N1; right; exact Q.
  - rewrite map_app. rewrite <- (app_nil_r (map snd rest)). 
    assert (LO : forall y, In y (map snd pushed) -> hnext h <= y). { intros y Q. apply in_map_iff in Q. destruct Q as [p [<- Hp]]. rewrite Forall_forall in PF. apply PF in Hp. tauto. }
    assert (HI : forall y, In y (map snd rest) -> y < hnext h). { intros y Q. apply in_map_iff in Q. destruct Q as [p [<- Hp]]. rewrite Forall_forall in FR. apply FR in Hp. apply (p_hi _ _ _ _ (proj2 Hp)). }
    change (map snd pushed ++ map snd rest ++ [])%list with ([] ++ map snd pushed ++ (map snd rest ++ []))%list. 
    apply NoDup_app3; cbn [app]; [rewrite app_nil_r; exact N2|exact NP|]. intros y Q1 Q2. rewrite app_nil_r in Q2. apply LO in Q1. apply HI in Q2. lia.
Qed.

Lemma clone_node_inv F h x fuel deep ov : inv F h -> x < hnext h ->
  match clone_node fuel h x deep ov with Ret r h' => inv F h' /\ grows h h' | Exn _ _ => False | Loop => True end.
Proof.
  intros I Hx. unfold clone_node. pose proof (clone_shallow_spec F h x ov I Hx) as S. destruct (clone_shallow h x ov) as [c h1].
  destruct S as [A1 A2 _ _ _ _ _ _ _ _]. cbn [fst snd] in *.
  assert (SH : inv F h1 /\ grows h h1) by auto.
  destruct deep; [|exact SH].
  assert (SUB : match clone_subtree fuel h1 x with Ret r h' => inv F h' /\ grows h h' | Exn _ _ => False | Loop => True end).
  { unfold clone_subtree. destruct (clone_shallow h1 x None) as [r h2] eqn:E.
    assert (Hx1 : x < hnext h1) by (pose proof (g_next _ _ A2); lia).
    pose proof (clone_shallow_spec F h1 x None A1 Hx1) as S. rewrite E in S. destruct S as [B1 B2 _ _ _ _ _ _ _ _]. cbn [fst snd] in *.
    pose proof (shellP_of F h1 A1 h1 x (r, h2) (grows_refl h1) Hx1 A1 E) as SP.
    destruct (clone_loop fuel h2 [(x, r)]) as [h3|] eqn:EL; [|exact Logic.I].
    destruct (clone_loop_inv F h1 A1 fuel h2 [(x, r)] h3 B1 B2) as [C1 C2]; [| |exact EL|].
    - constructor; [|constructor]. cbn [fst snd]. split; [exact Hx1|exact SP].
    - constructor; [intros []|constructor].
    - split; [exact C1|]. eapply grows_trans; eassumption. }
  destruct (kd (cell_at h x)); assumption.
Qed.

Lemma fresh_inv F h r k c a : fresh F h r k c a -> inv F (snd r). Proof. intros H. apply H. Qed.
Lemma str_data_opt d : str_data (opt_data d) = opt_data d. Proof. destruct d; reflexivity. Qed.
Lemma args_ok h o : forallb (fun x => (x <? hnext h)%nat) (op_args o) = true -> forall x, In x (op_args o) -> x < hnext h.
Proof. intros H x Hx. rewrite forallb_forall in H. apply Nat.ltb_lt. auto. Qed.

(* every call: the invariant, and failing calls change nothing *)
Lemma run_op_spec F h o fuel : inv F h -> (F -> not_content h o) ->
  match run_op fuel h o with Ret _ h' => inv F h' | Exn _ h' => h' = h | Loop => exists x ov, o = OpClone x true ov end.
Proof.
  intros I NC. unfold run_op. destruct (forallb (fun x => (x <? hnext h)%nat) (op_args o)) eqn:EA; [|reflexivity].
  pose proof (args_ok _ _ EA) as HA. pose proof (i_wf _ _ I) as W. pose proof (i_text _ _ I) as TO. pose proof (inv_frag _ _ I) as FO.
  destruct o; cbn [op_args] in HA; unfold made.
  - eapply fresh_inv. apply fresh_node. exact I.
  - eapply fresh_inv. apply fresh_document. exact I.
  - eapply fresh_inv. apply fresh_fragment. exact I.
  - eapply fresh_inv. apply fresh_comment; [exact I|apply str_data_opt].
  - eapply fresh_inv. apply fresh_pi; [exact I|apply str_data_opt].
  - eapply fresh_inv. apply fresh_text. exact I.
  - eapply fresh_inv. apply fresh_element. exact I.
  - destruct (fresh_template F h name a n I) as [t Fh]. eapply fresh_inv. exact Fh.
  - assert (OF : okF F h node) by (intros f x; exact (NC f node x eq_refl)).
    pose proof (append_spec F h self node W TO FO (HA node ltac:(cbn; auto)) (HA self ltac:(cbn; auto)) OF) as S.
    destruct (append_child h self node) as [t h'|e h'|]; [| |contradiction].
    + destruct S as [[_ ->] | [_ [_ [S1 [S2 _]]]]]; [exact I|]. eapply inv_frame; eassumption.
    + apply S.
  - assert (OF : okF F h node) by (intros f x; exact (NC f node x eq_refl)).
    pose proof (insert_spec F h self node ref W TO FO (HA node ltac:(destruct ref; cbn; auto)) (HA self ltac:(destruct ref; cbn; auto)) OF) as S.
    destruct (insert_before h self node ref) as [t h'|e h'|]; [| |contradiction].
    + destruct S as [[_ ->] | [_ [_ [_ [S1 [S2 _]]]]]]; [exact I|]. eapply inv_frame; eassumption.
    + apply S.
  - assert (OF : okF F h new) by (intros f x; exact (NC f new x eq_refl)).
    pose proof (replace_spec F h self new old W TO FO (HA new ltac:(cbn; auto)) (HA self ltac:(cbn; auto)) OF) as S.
    unfold rbind. destruct (replace_child h self new old) as [t h'|e h'|]; [| |contradiction].
    + destruct S as [_ [[_ [_ ->]] | [_ [_ [_ [S1 [S2 _]]]]]]]; [exact I|]. eapply inv_frame; eassumption.
    + apply S.
  - pose proof (remove_spec F h self node W) as S.
    destruct (remove_child h self node) as [t h'|e h'|]; [| |contradiction].
    + destruct S as [[_ ->] | [_ [S1 [S2 _]]]]; [exact I|]. eapply inv_frame; eassumption.
    + apply S.
  - pose proof (clone_node_inv F h x fuel deep ov I (HA x ltac:(cbn; auto))) as S. unfold rbind.
    destruct (clone_node fuel h x deep ov) as [r h'|e h'|] eqn:EC; [apply S|contradiction|].
    destruct deep; [eauto|]. unfold clone_node in EC. destruct (clone_shallow h x ov). discriminate EC.
Qed.

Lemma reached_inv h : reached h -> inv False h.
Proof.
  intros R; induction R.
  - apply (inv_weaken True False); [tauto|apply inv_empty].
  - pose proof (run_op_spec False h o fuel IHR ltac:(tauto)) as S. rewrite H in S. exact S.
  - pose proof (run_op_spec False h o fuel IHR ltac:(tauto)) as S. rewrite H in S. subst. exact IHR.
Qed.
Lemma reached_full_inv h : reached_full h -> inv True h.
Proof.
  intros R; induction R.
  - apply inv_empty.
  - pose proof (run_op_spec True h o fuel IHR (fun _ => H)) as S. rewrite H0 in S. exact S.
  - pose proof (run_op_spec True h o fuel IHR (fun _ => H)) as S. rewrite H0 in S. subst. exact IHR.
Qed.
Lemma reached_full_reached h : reached_full h -> reached h.
Proof. intros R; induction R; [constructor|eapply r_ret; eauto|eapply r_exn; eauto]. Qed.

Lemma wf_forest F h : wf F h -> forest h.
Proof.
  intros W. constructor.
  - apply (w_cp _ _ _ _ _ _ W).
  - intros x c H1 H2. apply (w_pc _ _ _ _ _ _ W); assumption.
  - apply (w_nd _ _ _ _ _ _ W).
  - intros x c H1 H2. exact (w_nf _ _ _ _ _ _ W _ _ H1 H2).
  - apply rooted_acyclic. apply (w_root _ _ _ _ _ _ W).
  - apply (w_out _ _ _ _ _ _ W).
Qed.
Lemma below_parent h x y : wf True h -> below h x y -> vP h y = Some x.
Proof. intros W [H | H]; [apply (w_cp _ _ _ _ _ _ W); exact H|apply (w_full _ _ _ _ _ _ W); [exact Logic.I|exact H]]. Qed.
Lemma wf_full_forest h : wf True h -> full_forest h.
Proof.
  intros W. constructor.
  - eapply wf_forest; exact W.
  - intros x f H. split; [apply (w_full _ _ _ _ _ _ W); [exact Logic.I|exact H]|apply (w_tf _ _ _ _ _ _ W x f H)].
  - assert (B : forall a b, clos_trans nat (below h) a b -> clos_trans nat (fun p c => vP h c = Some p) a b).
    { intros a b H. induction H as [a b H | a b c _ IH1 _ IH2]; [apply t_step; apply below_parent; assumption|eapply t_trans; eassumption]. }
    intros x H. exact (rooted_acyclic _ (w_root _ _ _ _ _ _ W) x (B _ _ H)).
  - assert (B : forall k x n, depth (vP h) x n -> hnext h - n < k -> Acc (fun y x => below h x y) x).
    { induction k as [|k IH]; intros x n D L; [lia|]. constructor. intros y Hy. apply (below_parent _ _ _ W) in Hy.
      assert (D' : depth (vP h) y (S n)) by (econstructor; eassumption). apply (IH y (S n) D').
      assert (S n <= hnext h).
      { apply (depth_bound (vP h) y (S n) (hnext h)); [| |exact D'].
        - intros z Hz. apply (w_out _ _ _ _ _ _ W z Hz).
        - intros z p Hz. apply (out_range _ _ _ _ _ _ W) in Hz. apply Hz. }
      lia. }
    intros x. destruct (rooted_depth _ _ (w_root _ _ _ _ _ _ W x)) as [n D]. exact (B _ x n D (Nat.lt_succ_diag_r _)).
Qed.

(* every node stands for a tree *)
Lemma denotes_exists h : inv True h -> forall x, x < hnext h -> exists t, denotes h (OldQ h) Any x t.
Proof.
  intros I. pose proof (wf_full_forest _ (i_wf _ _ I)) as FF. apply (well_founded_ind (traversal_ends _ FF) (fun x => x < hnext h -> exists t, denotes h (OldQ h) Any x t)).
  intros x IH Hx. pose proof (i_wf _ _ I) as W.
  assert (K : exists ch, match kids (cell_at h x), ch with None, None => True | Some ks, Some ts => Forall2 (denotes h (OldQ h) Any) ks ts | _, _ => False end).
  { destruct (kids (cell_at h x)) as [ks|] eqn:EK; [|exists None; exact Logic.I].
    assert (KI : forall c, In c ks -> exists t, denotes h (OldQ h) Any c t).
    { intros c Hc. assert (In c (kidl h x)) by (unfold kidl; rewrite EK; exact Hc). apply IH; [left; exact H|]. apply (out_range _ _ _ _ _ _ W) in H. apply H. }
    assert (exists ts, Forall2 (denotes h (OldQ h) Any) ks ts) as [ts Hts].
    { clear - KI. induction ks as [|k ks IHk]; [exists []; constructor|]. destruct (KI k (or_introl eq_refl)) as [t Ht]. destruct IHk as [ts Hts]; [intros c Hc; apply KI; right; exact Hc|]. exists (t :: ts). constructor; assumption. }
    exists (Some ts). exact Hts. }
  assert (C : exists tc, match tcon (cell_at h x), tc with None, None => True | Some f, Some t => denotes h (OldQ h) Any f t | _, _ => False end).
  { destruct (tcon (cell_at h x)) as [f|] eqn:EF; [|exists None; exact Logic.I]. destruct (IH f) as [t Ht]; [right; exact EF|apply (w_tf _ _ _ _ _ _ W x f EF)|]. exists (Some t). exact Ht. }
  destruct K as [ch K]. destruct C as [tc C]. exists (Tree (label_at h x) ch tc). apply denotes_unfold. split; [exact Hx|]. split; [intros; exact Logic.I|]. auto.
Qed.

Lemma clone_deep_spec h x ov : inv True h -> x < hnext h ->
  exists t, denotes h (OldQ h) Any x t /\ exists fuel0, forall fuel, fuel0 <= fuel -> exists r h', clone_node fuel h x true ov = Ret r h' /\
    (kd (cell_at h x) = KComment \/ kd (cell_at h x) = KPI \/ kd (cell_at h x) = KText \/ True) /\
    denotes h' (fun y => hnext h <= y < hnext h') (fun d => dnext h <= d < dnext h') r t /\ vP h' r = None /\ grows h h'.
Proof.
  intros I Hx. destruct (denotes_exists h I x Hx) as [t D]. exists t. split; [exact D|].
  pose proof (clone_shallow_spec True h x ov I Hx) as S0. destruct (clone_shallow h x ov) as [c h1] eqn:E1.
  pose proof S0 as [A1 A2 A3 A4 A5 A6 A7 A8 A9 A10]. cbn [fst snd] in *.
  assert (Hx1 : x < hnext h1) by (pose proof (g_next _ _ A2); lia).
  assert (LEAF : kd (cell_at h x) = KComment \/ kd (cell_at h x) = KPI \/ kd (cell_at h x) = KText -> 
    denotes h1 (fun y => hnext h <= y < hnext h1) (fun d => dnext h <= d < dnext h1) c t).
  { intros KK. destruct t as [l ch tc]. apply denotes_unfold in D. apply denotes_unfold. destruct D as [D1 [D2 [D3 [D4 D5]]]]. split; [lia|]. split; [exact A10|].
    pose proof (i_ok _ _ I x Hx) as [_ OK].
    assert (CA : cloned_attrs h x ov = attrs_value h x) by (unfold cloned_attrs; destruct KK as [-> | [-> | ->]]; destruct ov; reflexivity).
    split; [rewrite A9, D3, CA; reflexivity|].
    assert (TX : tcon (cell_at h x) = None) by (destruct KK as [E | [E | E]]; rewrite E in OK; tauto).
    rewrite TX in D5. assert (tcon (cell_at h1 c) = None) as -> by (apply A8; exact TX). split; [|exact D5].
    unfold kidl in A6. destruct KK as [E | [E | E]]; rewrite E in OK.
    - assert (KN : kids (cell_at h x) = None) by tauto. rewrite KN in D4. destruct A7 as [_ A7]. rewrite (A7 KN). exact D4.
    - assert (KN : kids (cell_at h x) = None) by tauto. rewrite KN in D4. destruct A7 as [_ A7]. rewrite (A7 KN). exact D4.
    - assert (KN : kids (cell_at h x) = Some []) by tauto. rewrite KN in D4. destruct A7 as [A7 _]. destruct (kids (cell_at h1 c)); [|rewrite (A7 eq_refl) in KN; discriminate KN].
      subst. destruct ch as [ts|]; [|contradiction]. inversion D4; subst. constructor. }
  assert (DEEP : exists fuel0, forall fuel, fuel0 <= fuel -> exists r h', clone_subtree fuel h1 x = Ret r h' /\
    denotes h' (fun y => hnext h <= y < hnext h') (fun d => dnext h <= d < dnext h') r t /\ vP h' r = None /\ grows h h').
  { unfold clone_subtree. destruct (clone_shallow h1 x None) as [r h2] eqn:E2.
    pose proof (clone_shallow_spec True h1 x None A1 Hx1) as S. rewrite E2 in S. destruct S as [B1 B2 B3 B4 B5 B6 B7 B8 B9 B10]. cbn [fst snd] in *.
    pose proof (shellP_of True h1 A1 h1 x (r, h2) (grows_refl h1) Hx1 A1 E2) as SP. cbn [fst snd] in SP.
    assert (D1 : denotes h1 (OldQ h1) Any x t).
    { apply (denotes_mono h1 (OldQ h) (fun d => d < dnext h)); [intros y; unfold OldQ; pose proof (g_next _ _ A2); lia|intros; exact Logic.I|].
      apply (denotes_frame h); [intros y Hy; apply (g_cells _ _ A2); exact Hy|intros e He; apply (g_dict _ _ A2); exact He|].
      clear - D I. revert x D. induction t as [l ch tc IHc IHt] using tree_ind2. intros x D. apply denotes_unfold in D. apply denotes_unfold.
      destruct D as [D1 [D2 [D3 [D4 D5]]]]. split; [exact D1|]. split; [intros d Hd; apply (i_ok _ _ I x D1); exact Hd|]. split; [exact D3|]. split.
      - destruct (kids (cell_at h x)) as [ks|], ch as [ts|]; auto. clear -D4 IHc. revert IHc. induction D4; intros IHc; constructor; inversion IHc; subst; auto.
      - destruct (tcon (cell_at h x)) as [f|], tc as [t|]; auto. }
    destruct (goes_all True h1 A1 t x h2 r B1 B2 D1 SP) as [k [h3 [C1 [C2 [C3 [C4 [C5 C6]]]]]]].
    exists (k + 1). intros fuel L. exists r, h3. replace fuel with (k + S (fuel - k - 1)) by lia. rewrite C1. cbn [clone_loop]. split; [reflexivity|].
    pose proof (g_next _ _ A2). pose proof (g_dnext _ _ A2). pose proof (g_next _ _ B2). pose proof (sb_next _ _ _ C4).
    split; [|split].
    - eapply denotes_mono; [| |exact C6].
      + intros y [-> | Z]; lia.
      + intros e Z. unfold NewR in Z. lia.
    - unfold vP. rewrite C5. exact B5.
    - eapply grows_trans; eassumption. }
  unfold clone_node. rewrite E1.
  destruct DEEP as [fuel0 DEEP]. exists fuel0. intros fuel L. destruct (DEEP fuel L) as [r [h' [Q1 [Q2 [Q3 Q4]]]]].
  destruct (kd (cell_at h x)) eqn:EK; try (exists r, h'; auto 6; fail); exists c, h1; (split; [reflexivity|]); (split; [auto|]); (split; [apply LEAF; auto|]); auto.
Qed.

Lemma clone_shallow_final F h x ov fuel : inv F h -> x < hnext h ->
  exists r h', clone_node fuel h x false ov = Ret r h' /\ hnext h <= r < hnext h' /\ parent h' r = None /\ children h' r = [] /\
    label_at h' r = (let l := label_at h x in Label (l_kind l) (l_name l) (l_ns l) (cloned_attrs h x ov) (l_data l) (l_meta l) (l_end l) (l_self l)) /\ grows h h'.
Proof.
  intros I Hx. unfold clone_node. pose proof (clone_shallow_spec F h x ov I Hx) as S. destruct (clone_shallow h x ov) as [c h1].
  destruct S as [A1 A2 A3 A4 A5 A6 A7 A8 A9 A10]. cbn [fst snd] in *. exists c, h1. repeat split; auto; apply A2.
Qed.
