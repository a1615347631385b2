(* C23 (dropped content), C24 (text). *)
From Coq Require Import Lia.
From Verif Require Import Str StrFacts SerializerModel UrlModel CssModel SanModel SanSpec SanFacts SanFuel SanProofs SanAttrProofs SanTreeProofs SanDropProofs.
Open Scope N_scope.

Section Content.
Variable py : urllib.
Variable p : policy.
Notation Walks := (Walks py p). Notation WalksTc := (WalksTc py p). Notation same := (same_outside p).

(* the relation computes the function *)
Lemma run_esc n nf t fs : top_ok p n -> run py p (mark (info_of n)) (skipn (mark (info_of n)) (pipeline p)) nf n = Ok (EscComment t) fs ->
  disallowed_tag_handling p = TEscape /\ exists i d, t = Tx i d.
Proof.
  intros T E. pose proof (run_shape py p _ _ _ _ _ _ E) as ((i & d & Hn) & S). split; [|exact S].
  apply top_le in T. rewrite (run_comment py p _ nf n i d) in E; [|destruct T as [T|T]; [destruct Hn; subst; contradiction|exact T]|exact Hn].
  destruct (pol_drop_comments p); [|discriminate E]. destruct (disallowed_tag_handling p); congruence.
Qed.

Lemma unclosed_spec n : unclosed_foreign n = true <-> unclosed_inside n.
Proof.
  assert (L : forall ch, Forall (fun n => unclosed_foreign n = true <-> unclosed_inside n) ch -> (existsb unclosed_foreign ch = true <-> exists c, In c ch /\ unclosed_inside c)).
  { intros ch H. rewrite existsb_exists. rewrite Forall_forall in H. split; intros (c & A & B); exists c; split; auto; apply (H c A); exact B. }
  induction n as [i name ns attrs ch tc H1 H2 | i d | i d | i d | i d | i name ch H1] using node_ind2; cbn [unclosed_foreign];
    try (split; [discriminate|]; intros (?i & ?nm & ?s & ?a & ?c & ?t & Q & _); inversion Q).
  - rewrite orb_true_iff, L by exact H1. rewrite !andb_true_iff, in_strs_In, !negb_true_iff. cbn [In]. split.
    + intros [[[A B] C]|(c & A & B)].
      * unfold html_or_none in A. destruct ns as [s|]; [|discriminate A]. exists i, name, s, attrs, ch, tc. split; [constructor|].
        split; [apply str_eqb_neq; exact A|]. split; [|exact C]. intuition.
      * destruct B as (i0 & nm & s & a & c0 & t & Q & R). exists i0, nm, s, a, c0, t. split; [eapply ic_child; eassumption|exact R].
    + intros (i0 & nm & s & a & c0 & t & Q & R1 & R2 & R3). inversion Q; subst.
      * left. cbn [html_or_none]. split; [split|exact R3]; [apply str_eqb_neq; exact R1|intuition].
      * right. eexists. split; [eassumption|]. exists i0, nm, s, a, c0, t. auto.
  - rewrite L by exact H1. split.
    + intros (c & A & i0 & nm & s & a & c0 & t & Q & R). exists i0, nm, s, a, c0, t. split; [eapply ic_frag; eassumption|exact R].
    + intros (i0 & nm & s & a & c0 & t & Q & R). inversion Q; subst. eexists. split; [eassumption|]. exists i0, nm, s, a, c0, t. auto.
Qed.

Scheme same_ind2 := Induction for same_outside Sort Prop with same_list_ind2 := Induction for same_outside_list Sort Prop
  with same_opt_ind2 := Induction for same_outside_opt Sort Prop.
Lemma same_unclosed n n' : same n n' -> unclosed_foreign n = unclosed_foreign n'.
Proof.
  intros H. induction H using same_ind2 with (P0 := fun l l' _ => existsb unclosed_foreign l = existsb unclosed_foreign l') (P1 := fun _ _ _ => True); auto.
  - apply Bool.eq_true_iff_eq. rewrite !unclosed_spec. assumption.
  - cbn [unclosed_foreign]. rewrite IHsame_outside. reflexivity.
  - cbn [existsb]. congruence.
Qed.
Lemma same_list_refl l : same_outside_list p l l.
Proof. induction l; constructor; [constructor|assumption]. Qed.
Lemma same_list_app a a' b b' : same_outside_list p a a' -> same_outside_list p b b' -> same_outside_list p (a ++ b) (a' ++ b').
Proof. intros H K. induction H; cbn [app]; [assumption|constructor; assumption]. Qed.
Lemma same_mark k n n' : same n n' -> same (mark_start k n) (mark_start k n').
Proof.
  intros H. destruct H as [n|i name ns attrs attrs' ch ch' tc tc' D U|i name ns attrs ch ch' tc tc' H1 H2|i name ch ch' H1]; cbn [mark_start set_info info_of].
  - apply so_same.
  - apply so_dropped; [exact D|]. rewrite <- !unclosed_spec in *. cbn [unclosed_foreign mark_info end_present] in *. exact U.
  - apply so_el; assumption.
  - apply so_fr; assumption.
Qed.
Lemma same_hoisted k ch ch' tc tc' : same_outside_list p ch ch' -> same_outside_opt p tc tc' -> same_outside_list p (hoisted k ch tc) (hoisted k ch' tc').
Proof.
  intros H1 H2. unfold hoisted.
  assert (H : same_outside_list p (ch ++ match tc with Some l => l | None => [] end) (ch' ++ match tc' with Some l => l | None => [] end)).
  { apply same_list_app; [exact H1|]. destruct H2; [constructor|assumption]. }
  induction H; cbn [map]; constructor; [apply same_mark; assumption|assumption].
Qed.
Lemma same_foreign n n' : same n n' -> foreign_here n = foreign_here n'.
Proof. intros H. destruct H; reflexivity. Qed.
Lemma same_info n n' : same n n' -> info_of n = info_of n'.
Proof. intros H. destruct H; reflexivity. Qed.
Lemma same_top n n' : same n n' -> is_tx n \/ (mark (info_of n) <= 1)%nat -> is_tx n' \/ (mark (info_of n') <= 1)%nat.
Proof. intros H. destruct H; auto. Qed.

Lemma top_insert t rest rest' : is_tx t -> insert_first (insert_html t) rest = Some rest' -> Forall (top_ok p) rest -> Forall (top_ok p) rest'.
Proof. intros Ht E. eapply insert_first_Forall; [|exact E]. intros a b Ha Hb. destruct t; try contradiction. eapply top_insert_html; eassumption. Qed.

(* insertion of an escaped comment *)
Hypothesis Hhb : disallowed_tag_handling p = TEscape -> ~ In (u "html") (drop_content_tags p) /\ ~ In (u "body") (drop_content_tags p).
Definition opt_same (a b : option node) : Prop := match a, b with Some x, Some y => same x y | None, None => True | _, _ => False end.
Lemma insert_first_same f l l' : (forall n n', same n n' -> opt_same (f n) (f n')) -> same_outside_list p l l' ->
  match insert_first f l, insert_first f l' with Some x, Some y => same_outside_list p x y | None, None => True | _, _ => False end.
Proof.
  intros Hf H. induction H as [|n n' l l' Hn H IH]; cbn [insert_first]; [exact I|]. specialize (Hf n n' Hn).
  destruct (f n), (f n'); cbn [opt_same] in Hf; try contradiction; [constructor; assumption|].
  destruct (insert_first f l), (insert_first f l'); try contradiction; [|exact I]. constructor; assumption.
Qed.
Lemma same_firstn k l l' : same_outside_list p l l' -> same_outside_list p (firstn k l) (firstn k l').
Proof. intros H. revert k. induction H; intros [|k]; cbn [firstn]; constructor; auto. Qed.
Lemma same_skipn k l l' : same_outside_list p l l' -> same_outside_list p (skipn k l) (skipn k l').
Proof. intros H. revert k. induction H; intros [|k]; cbn [skipn]; auto; constructor; auto. Qed.
Lemma insert_body_same t n n' : disallowed_tag_handling p = TEscape -> same n n' -> opt_same (insert_into_body t n) (insert_into_body t n').
Proof.
  intros He H. destruct H as [n|i name ns attrs attrs' ch ch' tc tc' D U|i name ns attrs ch ch' tc tc' H1 H2|i name ch ch' H1].
  - unfold opt_same. destruct (insert_into_body t n); constructor.
  - cbn [insert_into_body]. destruct (str_eqb_spec name (u "body")) as [->|]; [|exact I]. exfalso. apply (proj2 (Hhb He)). exact (proj2 D).
  - cbn [insert_into_body]. destruct (str_eqb name (u "body")); [|exact I]. constructor; [|exact H2]. apply same_list_app; [apply same_firstn; exact H1|].
    constructor; [constructor|apply same_skipn; exact H1].
  - exact I.
Qed.
Lemma insert_html_same t n n' : disallowed_tag_handling p = TEscape -> same n n' -> opt_same (insert_html t n) (insert_html t n').
Proof.
  intros He H. destruct H as [n|i name ns attrs attrs' ch ch' tc tc' D U|i name ns attrs ch ch' tc tc' H1 H2|i name ch ch' H1].
  - unfold opt_same. destruct (insert_html t n); constructor.
  - cbn [insert_html]. destruct (str_eqb_spec name (u "html")) as [->|]; [|exact I]. exfalso. apply (proj1 (Hhb He)). exact (proj2 D).
  - cbn [insert_html]. destruct (str_eqb name (u "html")); [|exact I].
    pose proof (insert_first_same (insert_into_body t) ch ch' (fun n n' => insert_body_same t n n' He) H1) as Q.
    destruct (insert_first (insert_into_body t) ch), (insert_first (insert_into_body t) ch'); try contradiction; [|exact I]. cbn [option_map opt_same]. constructor; assumption.
  - exact I.
Qed.

(* what a pass does to related nodes *)
Definition run1 (nf : bool) (n : node) : res outc := run py p (mark (info_of n)) (skipn (mark (info_of n)) (pipeline p)) nf n.
Definition same_out (o o' : outc) : Prop :=
  match o, o' with
  | Repl l, Repl l' => same_outside_list p l l'
  | Stay n, Stay n' => match n, n' with
                       | El i a b c ch tc, El i' a' b' c' ch' tc' => i = i' /\ a = a' /\ b = b' /\ c = c' /\ same_outside_list p ch ch' /\ same_outside_opt p tc tc'
                       | Fr i a ch, Fr i' a' ch' => i = i' /\ a = a' /\ same_outside_list p ch ch'
                       | _, _ => n = n'
                       end
  | _, _ => o = o'
  end.
Definition same_res (r r' : res outc) : Prop :=
  match r, r' with Ok o fs, Ok o' fs' => same_out o o' /\ fs = fs' | Exc, Exc => True | OutOfFuel, OutOfFuel => True | _, _ => False end.
Lemma same_opt_refl o : same_outside_opt p o o.
Proof. destruct o; constructor. apply same_list_refl. Qed.
Lemma same_out_refl o : same_out o o.
Proof.
  destruct o as [n| | |l|t]; cbn; auto; [|apply same_list_refl]. destruct n; auto.
  - repeat split; auto using same_list_refl, same_opt_refl.
  - repeat split; auto using same_list_refl.
Qed.
Lemma same_res_refl r : same_res r r.
Proof. destruct r; cbn; auto using same_out_refl. Qed.

Lemma run_same nf n n' : top_ok p n -> same n n' -> same_res (run1 nf n) (run1 nf n').
Proof.
  intros T H. pose proof (same_unclosed _ _ H) as Hu. unfold run1. rewrite <- (same_info _ _ H).
  destruct H as [n|i name ns attrs attrs' ch ch' tc tc' D U|i name ns attrs ch ch' tc tc' H1 H2|i name ch ch' H1].
  - apply same_res_refl.
  - apply top_le in T. destruct T as [[]|T]. cbn [info_of] in *. rewrite !run_El by exact T. rewrite <- Hu.
    destruct (_ && nf).
    { apply same_res_refl. }
    unfold decide. destruct D as [D1 D2]. assert (E1 : in_strs (lower name) (allowed_tags p) = false).
    { destruct (in_strs (lower name) (allowed_tags p)) eqn:E; [|reflexivity]. apply in_strs_In in E. contradiction. }
    rewrite E1. apply in_strs_In in D2. rewrite D2. cbn. auto.
  - apply top_le in T. destruct T as [[]|T]. cbn [info_of] in *. rewrite !run_El by exact T. rewrite <- Hu. destruct (_ && nf); [apply same_res_refl|].
    pose proof (same_hoisted 1 _ _ _ _ H1 H2) as Hh. unfold decide.
    destruct (in_strs (lower name) (allowed_tags p)).
    { destruct (final_attrs py p i name attrs) as [a fs| |]; cbn [bind same_res]; auto. split; [|reflexivity]. cbn [same_out]. repeat split; assumption. }
    destruct (in_strs (lower name) (drop_content_tags p)); [apply same_res_refl|].
    destruct (disallowed_tag_handling p).
    + destruct Hh; [apply same_res_refl|]. cbn [same_res same_out]. split; [constructor; assumption|reflexivity].
    + unfold escape_node. destruct (match raw_start i with Some s => _ | None => _ end) as [s|]; [|exact I].
      destruct (match raw_end i with Some s => _ | None => _ end) as [e|]; [|exact I]. cbn [same_res same_out]. split; [|reflexivity].
      apply same_list_app; [apply same_list_refl|]. apply same_list_app; [exact Hh|apply same_list_refl].
    + apply same_res_refl.
  - rewrite !run_Fr. cbn. auto.
Qed.

Lemma insert_list_same t l l' : disallowed_tag_handling p = TEscape -> same_outside_list p l l' ->
  match insert_first (insert_html t) l, insert_first (insert_html t) l' with Some x, Some y => same_outside_list p x y | None, None => True | _, _ => False end.
Proof. intros He. apply insert_first_same. intros n n'. apply insert_html_same. exact He. Qed.

Lemma mark0_Forall_top l : Forall (All mark0) l -> Forall (top_ok p) l.
Proof. intros H. eapply Forall_impl; [|exact H]. intros a. apply mark0_top. Qed.

(* the walks of related lists give the same result *)
Lemma walks_same k : forall k' doc ctx done l l' out fs, Forall (top_ok p) l -> same_outside_list p l l' ->
  walk py p k doc ctx done l = Ok out fs -> walk py p k' doc ctx done l' = Ok out fs \/ walk py p k' doc ctx done l' = OutOfFuel.
Proof.
  induction k as [|k IH]; intros k' doc ctx done l l' out fs T H E; [discriminate E|].
  destruct k' as [|k']; [right; reflexivity|].
  destruct H as [|n n' l l' Hn H]; [left; exact E|]. apply Forall_cons_iff in T. destruct T as [Tn T].
  pose proof (run_same (ctx || foreign_here n) n n' Tn Hn) as Q. pose proof (same_foreign _ _ Hn) as Hf.
  cbn [SanModel.walk] in *. rewrite <- Hf. fold (run1 (ctx || foreign_here n) n) in E. fold (run1 (ctx || foreign_here n) n').
  apply bind_Ok in E. destruct E as (o & f1 & f2 & R1 & E & ->). rewrite R1 in Q. destruct (run1 (ctx || foreign_here n) n') as [o' f1'| |]; try contradiction Q.
  destruct Q as [Q <-]. cbn [bind].
  assert (L : forall r : res (list node), r = Ok out f2 \/ r = OutOfFuel ->
     (match r with Ok b gs => Ok b (f1 ++ gs)%list | Exc => Exc | OutOfFuel => OutOfFuel end) = Ok out (f1 ++ f2)%list \/
     (match r with Ok b gs => Ok b (f1 ++ gs)%list | Exc => Exc | OutOfFuel => OutOfFuel end) = OutOfFuel).
  { intros r [-> | ->]; auto. }
  apply L. clear L.
  destruct o as [m | | | r | t]; destruct o' as [m' | | | r' | t']; cbn [same_out] in Q; try discriminate Q.
  - destruct m as [i name ns attrs ch tc | i d | i d | i d | i d | i name ch]; destruct m' as [i' name' ns' attrs' ch' tc' | i' d' | i' d' | i' d' | i' d' | i' name' ch']; try discriminate Q;
      try (match type of Q with ?a = ?b => assert (Ei : b = a) by (symmetry; exact Q); rewrite Ei end; eapply IH; eassumption).
    + destruct Q as (-> & -> & -> & -> & Hc & Ht).
      pose proof (run_shape py p _ _ _ _ _ _ R1) as Sh. destruct n as [i0 name0 ns0 attrs0 ch0 tc0 | | | | | ]; cbn in Sh; try discriminate Sh. destruct Sh as (-> & -> & -> & -> & ->).
      destruct Tn as [_ [T1 T2]].
      apply bind_Ok in E. destruct E as (c1 & g1 & g2 & E1 & E & ->). apply bind_Ok in E. destruct E as (t1 & g3 & g4 & E2 & E & ->).
      destruct (IH k' false _ [] _ _ _ _ (mark0_Forall_top _ T1) Hc E1) as [W|W]; [|right; rewrite W; reflexivity].
      assert (W2 : match tc' with None => Ok None [] | Some l => bind (walk py p k' false (ctx || foreign_here (El i' name' ns' attrs0 ch tc)) [] l) (fun l' => Ok (Some l') []) end = Ok t1 g3 \/
                   match tc' with None => Ok None [] | Some l => bind (walk py p k' false (ctx || foreign_here (El i' name' ns' attrs0 ch tc)) [] l) (fun l' => Ok (Some l') []) end = OutOfFuel).
      { destruct Ht as [|a b Hab]; [left; exact E2|]. apply bind_Ok in E2. destruct E2 as (q & h1 & h2 & E2 & E3 & ->).
        destruct (IH k' false _ [] _ _ _ _ (mark0_Forall_top _ (T2 _ eq_refl)) Hab E2) as [V|V]; rewrite V; cbn [bind]; [left|right; reflexivity].
        injection E3 as <- <-. reflexivity. }
      rewrite W. destruct W2 as [W2|W2]; rewrite W2; cbn [bind]; [|right; reflexivity].
      destruct (IH k' doc ctx _ _ _ _ _ T H E) as [V|V]; rewrite V; [left; reflexivity|right; reflexivity].
    + destruct Q as (-> & -> & Hc).
      pose proof (run_shape py p _ _ _ _ _ _ R1) as Sh. destruct n as [ | | | | | i0 name0 ch0]; cbn in Sh; try discriminate Sh. injection Sh as -> -> ->.
      destruct Tn as [_ T1]. apply bind_Ok in E. destruct E as (c1 & g1 & g2 & E1 & E & ->).
      destruct (IH k' _ _ [] _ _ _ _ (mark0_Forall_top _ T1) Hc E1) as [W|W]; rewrite W; cbn [bind]; [|right; reflexivity].
      destruct (IH k' doc ctx _ _ _ _ _ T H E) as [V|V]; rewrite V; [left; reflexivity|right; reflexivity].
  - eapply IH; eassumption.
  - eapply IH; [| |exact E]; constructor.
  - apply run_repl in R1; [|exact Tn]. destruct R1 as (i & name & ns & attrs & ch & tc & a & b & -> & Hh & -> & Ha & Hb & _). destruct Tn as [_ [T1 T2]].
    eapply IH; [| |exact E]; [|apply same_list_app; assumption].
    rewrite !Forall_app. repeat split; auto using tx_top. apply top_hoisted; assumption.
  - injection Q as <-. apply run_esc in R1; [|exact Tn]. destruct R1 as (He & ti & td & ->).
    destruct doc.
    + destruct (insert_first (insert_html (Tx ti td)) done) as [done'|]; [eapply IH; eassumption|].
      pose proof (insert_list_same (Tx ti td) _ _ He H) as Q. destruct (insert_first (insert_html (Tx ti td)) l) as [r|] eqn:Er, (insert_first (insert_html (Tx ti td)) l') as [r'|]; try contradiction Q.
      * eapply IH; [| |exact E]; [|exact Q]. eapply top_insert; [|exact Er|exact T]. exact I.
      * eapply IH; [| |exact E]; [|constructor; [constructor|assumption]]. constructor; [split; [left; exact I|exact I]|exact T].
    + eapply IH; [| |exact E]; [|constructor; [constructor|assumption]]. constructor; [split; [left; exact I|exact I]|exact T].
Qed.
Lemma existsb_map_ext {A} (f g : A -> bool) h l : Forall (fun a => f (h a) = g a) l -> existsb f (map h l) = existsb g l.
Proof. intros H. induction H; cbn [map existsb]; congruence. Qed.
Lemma unclosed_fresh n : unclosed_foreign (fresh n) = unclosed_foreign n.
Proof.
  induction n as [i name ns attrs ch tc H1 H2 | i d | i d | i d | i d | i name ch H1] using node_ind2; cbn [fresh unclosed_foreign end_present]; try reflexivity.
  - rewrite (existsb_map_ext _ _ _ _ H1). reflexivity.
  - apply (existsb_map_ext _ _ _ _ H1).
Qed.
Lemma same_fresh n n' : same n n' -> same (fresh n) (fresh n').
Proof.
  intros H. induction H using same_ind2 with (P0 := fun l l' _ => same_outside_list p (map fresh l) (map fresh l'))
     (P1 := fun o o' _ => same_outside_opt p (option_map (map fresh) o) (option_map (map fresh) o')); try (cbn [fresh map option_map]; constructor; assumption).
  assert (Hu : unclosed_inside (fresh (El i name ns attrs ch tc)) <-> unclosed_inside (fresh (El i name ns attrs' ch' tc'))).
  { rewrite <- !unclosed_spec, !unclosed_fresh, !unclosed_spec. assumption. }
  cbn [fresh] in *. apply so_dropped; assumption.
Qed.
Lemma same_list_fresh l l' : same_outside_list p l l' -> same_outside_list p (map fresh l) (map fresh l').
Proof. intros H. induction H; cbn [map]; constructor; [apply same_fresh; assumption|assumption]. Qed.
Lemma apply_children_same doc l l' out fs : same_outside_list p l l' -> apply_children py p doc l = Ok out fs -> apply_children py p doc l' = Ok out fs.
Proof.
  intros H E. unfold apply_children in *. apply bind_Ok in E. destruct E as (o & f1 & f2 & E1 & E2 & ->).
  destruct (walks_same (S (weights (map fresh l))) (S (weights (map fresh l'))) doc false [] (map fresh l) (map fresh l') o f1) as [W|W]; auto.
  - apply mark0_Forall_top. apply Forall_map. apply Forall_forall. intros y _. apply fresh_mark0.
  - apply same_list_fresh. exact H.
  - rewrite W. cbn [bind]. rewrite E2. reflexivity.
  - exfalso. revert W. apply walk_fuel. lia.
Qed.
Lemma apply_same n n' out fs : same n n' -> apply_policy_to_root py p n = Ok out fs -> apply_policy_to_root py p n' = Ok out fs.
Proof.
  intros H E. pose proof H as H0.
  destruct H as [n|i name ns attrs attrs' ch ch' tc tc' D U|i name ns attrs ch ch' tc tc' H1 H2|i name ch ch' H1]; [exact E| | |];
    cbn [apply_policy_to_root] in *; apply bind_Ok in E; destruct E as (o & f1 & f2 & E1 & E2 & ->).
  - erewrite apply_children_same; [|constructor; [exact H0|constructor]|exact E1]. cbn [bind]. rewrite E2. reflexivity.
  - erewrite apply_children_same; [|constructor; [exact H0|constructor]|exact E1]. cbn [bind]. rewrite E2. reflexivity.
  - erewrite apply_children_same; [|exact H1|exact E1]. cbn [bind]. assert (out = Fr i name o) as -> by congruence. assert (f2 = []) as -> by congruence. reflexivity.
Qed.
End Content.

(* ---- text ---- *)
Section Text.
Variable py : urllib.
Variable p : policy.
Hypothesis Hesc : disallowed_tag_handling p <> TEscape.

Lemma ss_refl a : subseq a a.
Proof. induction a; constructor; assumption. Qed.
Lemma ss_empty a : subseq [] a.
Proof. induction a; constructor; assumption. Qed.
Lemma ss_app a b c d : subseq a b -> subseq c d -> subseq (a ++ c) (b ++ d).
Proof. intros H K. induction H; cbn [app]; [exact K|constructor; assumption|constructor; assumption]. Qed.
Lemma ss_trans a b c : subseq a b -> subseq b c -> subseq a c.
Proof.
  intros H K. revert a H. induction K; intros x H; [exact H| |constructor; auto].
  inversion H; subst; [constructor; auto|constructor; auto].
Qed.
Definition texts (l : list node) : str := List.concat (map text_of l).
Definition textso (o : option (list node)) : str := match o with Some l => texts l | None => [] end.
Lemma texts_app a b : texts (a ++ b) = (texts a ++ texts b)%list.
Proof. unfold texts. rewrite map_app, concat_app. reflexivity. Qed.
Lemma text_El i name ns attrs ch tc : text_of (El i name ns attrs ch tc) = (texts ch ++ textso tc)%list.
Proof. destruct tc; reflexivity. Qed.
Lemma text_mark k n : text_of (mark_start k n) = text_of n.
Proof. destruct n; reflexivity. Qed.
Lemma texts_hoisted k ch tc : texts (hoisted k ch tc) = (texts ch ++ textso tc)%list.
Proof.
  unfold hoisted. assert (G : forall l, texts (map (mark_start k) l) = texts l).
  { intros l. unfold texts. rewrite map_map. f_equal. apply map_ext. intros n. apply text_mark. }
  rewrite G, texts_app. destruct tc; reflexivity.
Qed.
Lemma filter_ss (f : N -> bool) s : subseq (filter f s) s.
Proof. induction s as [|c s IH]; cbn [filter]; [constructor|]. destruct (f c); constructor; assumption. Qed.
Lemma strip_ss s : subseq (strip_invisible s) s.
Proof. rewrite UrlHostProofs.strip_invisible_filter. apply filter_ss. Qed.
Lemma walks_text doc ctx done pending out fs : Walks py p doc ctx done pending out fs -> Forall (top_ok p) pending ->
  subseq (texts out) (texts done ++ texts pending).
Proof.
  intros H. induction H using Walks_ind2 with (P0 := fun ctx tc tc' fs _ => (forall l, tc = Some l -> Forall (top_ok p) l) -> subseq (textso tc') (textso tc)).
  all: intros T; repeat match goal with H : Forall _ (_ :: _) |- _ => apply Forall_cons_iff in H; destruct H end.
  - unfold texts at 3. cbn [map List.concat]. rewrite app_nil_r. apply ss_refl.
  - eapply ss_trans; [apply IHWalks; assumption|]. apply ss_app; [apply ss_refl|]. change (texts (n :: rest)) with (text_of n ++ texts rest)%list.
    rewrite <- (app_nil_l (texts rest)) at 1. apply ss_app; [apply ss_empty|apply ss_refl].
  - rewrite <- (app_nil_r (texts done)) at 1. apply ss_app; [apply ss_refl|apply ss_empty].
  - apply run_repl in e; [|assumption]. destruct e as (i & name & ns & attrs & ch & tc & a & b & -> & Hh & -> & Ha & Hb & Hu).
    destruct Hu as [-> ->]; [destruct (disallowed_tag_handling p); congruence|]. cbn [app] in *. rewrite app_nil_r in *.
    match goal with H : top_ok p (El _ _ _ _ _ _) |- _ => destruct H as [_ [T1 T2]] end.
    eapply ss_trans; [apply IHWalks; rewrite Forall_app; split; [apply top_hoisted; assumption|assumption]|].
    rewrite texts_app, texts_hoisted. change (texts (El i name ns attrs ch tc :: rest)) with (text_of (El i name ns attrs ch tc) ++ texts rest)%list. rewrite text_El. apply ss_refl.
  - apply run_esc in e; [|assumption]. destruct e; contradiction.
  - apply run_esc in e; [|assumption]. destruct e; contradiction.
  - apply run_esc in e; [|assumption]. destruct e; contradiction.
  - pose proof (run_shape py p _ _ _ _ _ _ e) as Sh.
    destruct n as [i0 name0 ns0 attrs0 ch0 tc0 | | | | | ]; cbn in Sh; try discriminate Sh. destruct Sh as (-> & -> & -> & -> & ->).
    match goal with H : top_ok p (El _ _ _ _ _ _) |- _ => destruct H as [_ [T1 T2]] end.
    eapply ss_trans; [apply IHWalks3; assumption|]. rewrite texts_app, <- app_assoc. apply ss_app; [apply ss_refl|].
    change (texts (El i name ns attrs0 ch tc :: rest)) with (text_of (El i name ns attrs0 ch tc) ++ texts rest)%list. apply ss_app; [|apply ss_refl].
    unfold texts. cbn [map List.concat]. rewrite app_nil_r, !text_El. apply ss_app.
    + change (texts ch') with (texts ch'). eapply ss_trans; [apply IHWalks1; apply mark0_Forall_top; exact T1|apply ss_refl].
    + apply IHWalks2. intros l Hl. apply mark0_Forall_top. exact (T2 l Hl).
  - pose proof (run_shape py p _ _ _ _ _ _ e) as Sh. destruct n; cbn in Sh; try discriminate Sh. injection Sh as -> -> ->.
    match goal with H : top_ok p (Fr _ _ _) |- _ => destruct H as [_ T1] end.
    eapply ss_trans; [apply IHWalks2; assumption|]. rewrite texts_app, <- app_assoc. apply ss_app; [apply ss_refl|]. apply ss_app; [|apply ss_refl].
    unfold texts at 1. cbn [map List.concat]. rewrite app_nil_r. eapply ss_trans; [apply IHWalks1; apply mark0_Forall_top; exact T1|apply ss_refl].
  - eapply ss_trans; [apply IHWalks; assumption|]. rewrite texts_app, <- app_assoc. apply ss_app; [apply ss_refl|]. apply ss_app; [|apply ss_refl].
    unfold texts. cbn [map List.concat]. rewrite app_nil_r. pose proof (run_shape py p _ _ _ _ _ _ e) as Sh.
    destruct n as [i name ns attrs ch tc | i d | i d | i d | i d | i name ch]; destruct n' as [i' name' ns' attrs' ch' tc' | i' d' | i' d' | i' d' | i' d' | i' name' ch'];
      cbn in Sh; try discriminate Sh; try contradiction; try apply ss_empty.
    cbn [info_of] in e. destruct (run_text py p (mark i) (ctx || foreign_here (Tx i d)) i d) as (d1 & g & E & [[-> _]| ->] & _); rewrite E in e.
    + assert (d' = d) as -> by congruence. apply ss_refl.
    + assert (d' = strip_invisible d) as -> by congruence. apply strip_ss.
  - constructor.
  - cbn [textso]. apply IHWalks. auto.
Qed.
Lemma text_fresh n : text_of (fresh n) = text_of n.
Proof.
  induction n as [i name ns attrs ch tc H1 H2 | i d | i d | i d | i d | i name ch H1] using node_ind2; cbn [fresh]; try reflexivity.
  - rewrite !text_El. assert (G : forall l, Forall (fun n => text_of (fresh n) = text_of n) l -> texts (map fresh l) = texts l).
    { intros l H. unfold texts. f_equal. rewrite map_map. apply map_ext_Forall. exact H. }
    rewrite G by exact H1. f_equal. destruct tc as [l|]; [|reflexivity]. cbn [option_map textso]. apply G. exact (H2 _ eq_refl).
  - cbn [text_of]. f_equal. rewrite map_map. apply map_ext_Forall. exact H1.
Qed.
Lemma texts_fresh l : texts (map fresh l) = texts l.
Proof. unfold texts. f_equal. rewrite map_map. apply map_ext. exact text_fresh. Qed.
Hypothesis Hraw : forall t, In t (allowed_tags p) -> t <> u "script" /\ t <> u "style".
Lemma apply_children_text doc l out fs : apply_children py p doc l = Ok out fs -> subseq (texts out) (texts l).
Proof.
  intros H. unfold apply_children in H. apply bind_Ok in H. destruct H as (o & f1 & f2 & H1 & H2 & _).
  assert (E : existsb (fun t => in_strs t [u "script"; u "style"]) (allowed_tags p) = false).
  { destruct (existsb _ _) eqn:E; [|reflexivity]. apply existsb_exists in E. destruct E as (t & Ht & E). apply in_strs_In in E. destruct (Hraw t Ht) as [A B]. cbn [In] in E. intuition congruence. }
  rewrite E in H2. assert (out = map fresh o) as -> by congruence. rewrite texts_fresh. apply walk_Walks in H1. apply walks_text in H1.
  - rewrite texts_fresh in H1. exact H1.
  - apply mark0_Forall_top. apply Forall_map. apply Forall_forall. intros y _. apply fresh_mark0.
Qed.
Lemma apply_text n out fs : apply_policy_to_root py p n = Ok out fs -> subseq (text_of out) (text_of n).
Proof.
  intros H.
  assert (G : bind (apply_children py p false [n]) (fun ch' => match ch' with [only] => Ok only [] | _ => Ok (Fr no_info (u "#document-fragment") ch') [] end) = Ok out fs -> subseq (text_of out) (text_of n)).
  { intros Q. apply bind_Ok in Q. destruct Q as (ch' & ? & ? & Q & Q2 & _). apply apply_children_text in Q. unfold texts in Q at 2. cbn [map List.concat] in Q. rewrite app_nil_r in Q.
    destruct ch' as [|c [|c2 r]].
    - assert (out = Fr no_info (u "#document-fragment") []) as -> by congruence. exact Q.
    - assert (out = c) as -> by congruence. unfold texts in Q. cbn [map List.concat] in Q. rewrite app_nil_r in Q. exact Q.
    - assert (out = Fr no_info (u "#document-fragment") (c :: c2 :: r)) as -> by congruence. exact Q. }
  destruct n as [i name ns attrs ch tc | i d | i d | i d | i d | i name ch]; try exact (G H).
  cbn [apply_policy_to_root] in H. apply bind_Ok in H. destruct H as (ch' & ? & ? & H & Q & _). assert (out = Fr i name ch') as -> by congruence.
  apply apply_children_text in H. exact H.
Qed.
End Text.
