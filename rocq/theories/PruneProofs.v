(* PROOFS for PruneEmpty (C59) *)
From Coq Require Import Lia.
From Verif Require Import ListFacts Str StrFacts SerializerModel SerTreeProofs TextSpec TextProofs PrettySpec TransModel TransSpec TransProofs TidySpec.
Open Scope list_scope. Open Scope N_scope.

Definition as_pair (pt : prune) : (node -> bool) * bool := (p_sel pt, p_strip pt).
Lemma content_blank b l : has_content b l = false <-> blank b l.
Proof.
  unfold has_content, blank. rewrite <- not_true_iff_false, existsb_exists. split.
  - intros H c I. destruct c as [d|d|d|d|cs|name ns attrs cs tc]; try exact Logic.I; try (apply H; eexists; split; [exact I|reflexivity]).
    unfold blank_text. destruct b.
    + destruct (strip d) eqn:E; [reflexivity|]. exfalso. apply H. exists (NText d). split; [exact I|]. cbn beta iota. rewrite E. reflexivity.
    + destruct d; [reflexivity|]. exfalso. apply H. eexists. split; [exact I|reflexivity].
  - intros H (c & I & E). specialize (H c I). destruct c as [d|d|d|d|cs|name ns attrs cs tc]; try discriminate E; try exact H. unfold blank_text in H. destruct b; rewrite H in E; discriminate E.
Qed.
Lemma void_iff name : in_strs (lower name) void_elements = true <-> is_void name.
Proof. unfold is_void. rewrite in_strs_In. reflexivity. Qed.
Lemma empty_iff b name ns attrs cs tc : effectively_empty b (NElem name ns attrs cs tc) = true <-> empty_element b (NElem name ns attrs cs tc).
Proof.
  cbn [effectively_empty empty_element]. rewrite <- void_iff.
  assert (NS : (match ns with Some s => str_eqb s (u "html") | None => false end) = true <-> ns = Some (u "html")).
  { destruct ns as [s|]; [|split; discriminate]. rewrite str_eqb_eq. split; [intros ->; reflexivity|congruence]. }
  destruct (match ns with Some s => str_eqb s (u "html") | None => false end) eqn:En; destruct (in_strs (lower name) void_elements) eqn:Ev; cbn [andb].
  1: { split; [discriminate|]. intros [H _]. exfalso. apply H. split; [apply NS; reflexivity|reflexivity]. }
  all: assert (V : ~ (ns = Some (u "html") /\ in_strs (lower name) void_elements = true)) by (rewrite <- NS, Ev; intros [X Y]; discriminate).
  all: rewrite Ev in V; pose proof (content_blank b cs) as B; destruct (has_content b cs);
    [split; [discriminate|intros (_ & X & _); apply B in X; discriminate X]|];
    (destruct tc as [l|]; [|split; [intros _; repeat split; [exact V|apply B; reflexivity|discriminate]|reflexivity]]);
    pose proof (content_blank b l) as B2; destruct (has_content b l); cbn [negb];
    [split; [discriminate|intros (_ & _ & X); specialize (X l eq_refl); apply B2 in X; discriminate X]
    |split; [intros _; repeat split; [exact V|apply B; reflexivity|intros l0 E; injection E as <-; apply B2; reflexivity]|reflexivity]].
Qed.
Definition no_doctype_sel (pts : list prune) : Prop := forall pt d, In pt pts -> p_sel pt (NDoctype d) = false.
Lemma away_iff pts n : no_doctype_sel pts -> pruned_away pts n = true <-> (exists sel strip_ws, In (sel, strip_ws) (map as_pair pts) /\ sel n = true /\ empty_element strip_ws n).
Proof.
  intros ND. destruct n as [d|d|d|d|cs|name ns attrs cs tc]; cbn [pruned_away]; try (split; [discriminate|intros (? & ? & _ & _ & [])]).
  - rewrite existsb_exists. split; [|intros (? & ? & _ & _ & [])]. intros (pt & I & E). rewrite (ND pt d I) in E. discriminate E.
  - rewrite existsb_exists. split.
    + intros (pt & I & E). apply andb_true_iff in E as [E1 E2]. exists (p_sel pt), (p_strip pt). split; [apply in_map_iff; exists pt; split; [reflexivity|exact I]|]. split; [exact E1|]. apply empty_iff, E2.
    + intros (sel & b & I & E1 & E2). apply in_map_iff in I as (pt & E & I). exists pt. split; [exact I|]. unfold as_pair in E. injection E as <- <-. rewrite E1. cbn [andb]. apply empty_iff, E2.
Qed.
Definition kept pts (l : list node) : list node := filter (fun c => negb (pruned_away pts c)) (map (prune_tree pts) l).
Lemma prune_doc pts cs : prune_tree pts (NDocument cs) = NDocument (kept pts cs). Proof. reflexivity. Qed.
Lemma prune_elem pts name ns attrs cs tc : prune_tree pts (NElem name ns attrs cs tc) = NElem name ns attrs (kept pts cs) (match tc with Some l => Some (kept pts l) | None => None end).
Proof. reflexivity. Qed.
Lemma kept_spec pts l : no_doctype_sel pts -> Forall (fun n => pruned_inside (map as_pair pts) n (prune_tree pts n)) l -> pruned (map as_pair pts) l (kept pts l).
Proof.
  intros ND F. induction F as [|n l H F IH]; [constructor|]. cbn [kept map filter]. fold (kept pts l). destruct (pruned_away pts (prune_tree pts n)) eqn:E; cbn [negb].
  - eapply pr_gone; [exact H| |exact IH]. apply away_iff; assumption.
  - apply pr_stays; [exact H| |exact IH]. intros X. apply away_iff in X; [congruence|exact ND].
Qed.
Lemma prune_spec pts n : no_doctype_sel pts -> pruned_inside (map as_pair pts) n (prune_tree pts n).
Proof.
  intros ND. induction n as [d|d|d|d|cs IH|name ns attrs cs tc IH IHt] using node_ind'; try (constructor; exact Logic.I).
  - rewrite prune_doc. constructor. apply kept_spec; assumption.
  - rewrite prune_elem. destruct tc as [l|]; constructor; try (apply kept_spec; assumption). apply kept_spec; [exact ND|apply IHt; reflexivity].
Qed.
(* nothing left to prune *)
Lemma kept_In pts l c : In c (kept pts l) -> exists n, In n l /\ c = prune_tree pts n /\ pruned_away pts c = false.
Proof. unfold kept. rewrite filter_In. intros [I H]. apply negb_true_iff in H. apply in_map_iff in I as (n & <- & I). exists n. repeat split; assumption. Qed.
Lemma none_left pts n : forall m, within m (prune_tree pts n) -> m = prune_tree pts n \/ pruned_away pts m = false.
Proof.
  assert (K : forall l, Forall (fun n => forall m, within m (prune_tree pts n) -> m = prune_tree pts n \/ pruned_away pts m = false) l -> forall c m, In c (kept pts l) -> within m c -> pruned_away pts m = false).
  { intros l F c m I W. apply kept_In in I as (n0 & I & -> & A). rewrite Forall_forall in F. destruct (F n0 I m W) as [->|H]; assumption. }
  induction n as [d|d|d|d|cs IH|name ns attrs cs tc IH IHt] using node_ind'; intros m W; try (left; inversion W; reflexivity).
  - rewrite prune_doc in *. inversion W as [|c cs0 I W2| |]; subst; [left; reflexivity|right; exact (K cs IH c m I W2)].
  - rewrite prune_elem in *. inversion W as [| |c nm ns0 at0 cs0 tc0 I W2|c nm ns0 at0 cs0 l0 I W2]; subst; [left; reflexivity|right; exact (K cs IH c m I W2)|].
    destruct tc as [l|]; [|discriminate]. assert (l0 = kept pts l) as -> by congruence. right. exact (K l (IHt l eq_refl) c m I W2).
Qed.
Lemma kept_again pts l : Forall (fun n => prune_tree pts (prune_tree pts n) = prune_tree pts n) l -> kept pts (kept pts l) = kept pts l.
Proof.
  unfold kept at 2 3. induction 1 as [|n l H F IH]; [reflexivity|]. cbn [map filter]. destruct (pruned_away pts (prune_tree pts n)) eqn:E; cbn [negb]; [exact IH|].
  unfold kept in *. cbn [map filter]. rewrite H, E. cbn [negb]. rewrite IH. reflexivity.
Qed.
Lemma prune_again pts n : prune_tree pts (prune_tree pts n) = prune_tree pts n.
Proof.
  induction n as [d|d|d|d|cs IH|name ns attrs cs tc IH IHt] using node_ind'; try reflexivity.
  - rewrite !prune_doc, kept_again by exact IH. reflexivity.
  - rewrite !prune_elem, kept_again by exact IH. destruct tc as [l|]; [rewrite kept_again by (apply IHt; reflexivity)|]; reflexivity.
Qed.
(* the texts that are not blank stay *)
Lemma blank_ok b d : blank_text b d <-> text_ok b d = false.
Proof. unfold blank_text, text_ok. destruct b; [destruct (strip d)|destruct d]; split; congruence. Qed.
Lemma strip_nil : strip [] = []. Proof. reflexivity. Qed.
Lemma blank_texts b l : blank b l -> Forall (fun c => match c with NDocument _ => False | _ => True end) l -> filter (text_ok b) (flat_map texts_f l) = [].
Proof.
  intros H F. induction l as [|c l IH]; [reflexivity|]. cbn [flat_map]. rewrite filter_app, IH; [|intros x I; apply H; right; exact I|inversion F; assumption]. rewrite app_nil_r.
  pose proof (H c (or_introl eq_refl)) as Hc. inversion F as [|x y Fc _]; subst. destruct c as [d|d|d|d|cs|name ns attrs cs tc]; try reflexivity; try destruct Hc; try destruct Fc.
  cbn [texts_f filter]. apply blank_ok in Hc. rewrite Hc. reflexivity.
Qed.
Lemma ok_weaken d : text_ok false d = false -> text_ok true d = false.
Proof. unfold text_ok. destruct d; [reflexivity|discriminate]. Qed.
Lemma plain_elem name ns attrs cs tc : plain (NElem name ns attrs cs tc) <-> Forall plain cs /\ match tc with Some l => Forall plain l | None => True end.
Proof.
  split.
  - intros P. split; [apply Forall_forall; intros c I m k W; apply P; exact (w_child _ c _ _ _ _ _ I W)|]. destruct tc as [l|]; [|exact Logic.I]. apply Forall_forall; intros c I m k W; apply P; exact (w_template _ c _ _ _ _ _ I W).
  - intros [P1 P2] m k W. inversion W as [| |c nm ns0 at0 cs0 tc0 I W2|c nm ns0 at0 cs0 l0 I W2]; subst; [discriminate| |]; rewrite Forall_forall in *; [exact (P1 c I m k W2)|exact (P2 c I m k W2)].
Qed.
Lemma prune_plain pts n : plain n -> plain (prune_tree pts n).
Proof.
  assert (K : forall l, Forall (fun n => plain n -> plain (prune_tree pts n)) l -> Forall plain l -> Forall plain (kept pts l)).
  { intros l F P. rewrite Forall_forall in *. intros c I. apply kept_In in I as (n0 & I & -> & _). exact (F n0 I (P n0 I)). }
  induction n as [d|d|d|d|cs IH|name ns attrs cs tc IH IHt] using node_ind'; try exact (fun H => H).
  { intros P. exfalso. exact (P _ cs (w_self _) eq_refl). }
  intros P. apply plain_elem in P as [P1 P2]. rewrite prune_elem. apply plain_elem. split; [exact (K cs IH P1)|]. destruct tc as [l|]; [|exact Logic.I]. exact (K l (IHt l eq_refl) P2).
Qed.
Lemma plain_nodoc l : Forall plain l -> Forall (fun c => match c with NDocument _ => False | _ => True end) l.
Proof. intros F. eapply Forall_impl; [|exact F]. intros c P. destruct c; try exact Logic.I. exact (P _ children (w_self _) eq_refl). Qed.
Lemma empty_texts b strip_ws n : (strip_ws = true -> b = true) -> plain n -> empty_element strip_ws n -> filter (text_ok b) (texts_f n) = [].
Proof.
  intros Hb P H. destruct n as [d|d|d|d|cs|name ns attrs cs tc]; try destruct H as []. destruct H0 as [B1 B2]. apply plain_elem in P as [P1 P2]. cbn [texts_f]. rewrite filter_app.
  assert (W : forall l, Forall plain l -> blank strip_ws l -> filter (text_ok b) (flat_map texts_f l) = []).
  { intros l Pl Bl. apply blank_texts; [|apply plain_nodoc, Pl]. intros c I. specialize (Bl c I). destruct c as [d|d|d|d|cs0|nm ns0 at0 cs0 tc0]; try exact Bl. apply blank_ok. apply blank_ok in Bl. destruct strip_ws; [rewrite (Hb eq_refl); exact Bl|]. destruct b; [apply ok_weaken|]; exact Bl. }
  rewrite (W cs P1 B1). destruct tc as [l|]; [exact (W l P2 (B2 l eq_refl))|reflexivity].
Qed.
Lemma prune_texts pts b n : (forall pt, In pt pts -> p_strip pt = true -> b = true) -> plain n -> filter (text_ok b) (texts_f (prune_tree pts n)) = filter (text_ok b) (texts_f n).
Proof.
  intros Hb.
  assert (K : forall l, Forall (fun n => plain n -> filter (text_ok b) (texts_f (prune_tree pts n)) = filter (text_ok b) (texts_f n)) l -> Forall plain l -> filter (text_ok b) (flat_map texts_f (kept pts l)) = filter (text_ok b) (flat_map texts_f l)).
  { intros l F P. induction F as [|n0 l H F IH]; [reflexivity|]. inversion P as [|x y P0 P1]; subst. cbn [kept map filter flat_map]. fold (kept pts l). rewrite filter_app, <- (H P0), <- (IH P1). destruct (pruned_away pts (prune_tree pts n0)) eqn:E; cbn [negb]; [|cbn [flat_map]; rewrite filter_app; reflexivity].
    pose proof (prune_plain pts n0 P0) as P2. destruct (prune_tree pts n0) as [d|d|d|d|cs|name ns attrs cs tc]; try discriminate E; [reflexivity|]. cbn [pruned_away] in E. apply existsb_exists in E as (pt & I & E). apply andb_true_iff in E as [_ E].
    apply empty_iff in E. rewrite (empty_texts b _ _ (Hb pt I) P2 E). reflexivity. }
  induction n as [d|d|d|d|cs IH|name ns attrs cs tc IH IHt] using node_ind'; intros P; try reflexivity; [exfalso; exact (P _ cs (w_self _) eq_refl)|].
  apply plain_elem in P as [P1 P2]. rewrite prune_elem. cbn [texts_f]. rewrite !filter_app, (K cs IH P1). destruct tc as [l|]; [rewrite (K l (IHt l eq_refl) P2)|]; reflexivity.
Qed.
Lemma prune_texts_root pts b cs : (forall pt, In pt pts -> p_strip pt = true -> b = true) -> Forall plain cs -> filter (text_ok b) (texts_f (prune_tree pts (NDocument cs))) = filter (text_ok b) (texts_f (NDocument cs)).
Proof.
  intros Hb P. rewrite prune_doc. cbn [texts_f]. induction P as [|n0 l P0 P IH]; [reflexivity|]. cbn [kept map filter flat_map]. fold (kept pts l). rewrite filter_app, <- (prune_texts pts b n0 Hb P0), <- IH. destruct (pruned_away pts (prune_tree pts n0)) eqn:E; cbn [negb]; [|cbn [flat_map]; rewrite filter_app; reflexivity].
  pose proof (prune_plain pts n0 P0) as P2. destruct (prune_tree pts n0) as [d|d|d|d|cs|name ns attrs cs tc]; try discriminate E; [reflexivity|]. cbn [pruned_away] in E. apply existsb_exists in E as (pt & I & E). apply andb_true_iff in E as [_ E].
  apply empty_iff in E. rewrite (empty_texts b _ _ (Hb pt I) P2 E). reflexivity.
Qed.
