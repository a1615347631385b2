(* C28, C29: the DOM. *)
From Verif Require Import Str SerializerModel SanModel DomModel DomSpec DomViewProofs DomProofs DomOpProofs DomReplaceProofs DomInvProofs DomCloneProofs DomCloneLoop DomFinal.
From Coq Require Import Lia Relations.
Open Scope nat_scope.

Lemma abv_above h a x : abv (vP h) a x <-> above h a x.
Proof. split; intros H; induction H; [constructor|eapply above_up; eauto|constructor|eapply abv_up; eauto]. Qed.

(* C28: whatever calls are made, the nodes form a forest: parent and child links agree, no node is twice in the tree, no node is its own ancestor. *)
Theorem C28_forest : forall h, reached h -> forest h.
Proof. intros h R. exact (wf_forest False h (i_wf _ _ (reached_inv h R))). Qed.

(* C28: as long as no template's template_content object is itself passed to an insertion method, following children and template contents
   downwards always ends and never comes back to the same node. *)
Theorem C28_full_forest_partial : forall h, reached_full h -> full_forest h.
Proof. intros h R. exact (wf_full_forest h (i_wf _ _ (reached_full_inv h R))). Qed.

(* C28: a failing call changes nothing. *)
Theorem C28_failing_calls_change_nothing : forall h fuel o e h', reached h -> run_op fuel h o = Exn e h' -> h' = h.
Proof.
  intros h fuel o e h' R E. pose proof (run_op_spec False h o fuel (reached_inv h R) ltac:(tauto)) as S. rewrite E in S. exact S.
Qed.

(* C28: the editing methods always return or raise (only a deep clone could run forever, see C29). *)
Theorem C28_editing_terminates : forall h fuel o, reached h -> (forall x ov, o <> OpClone x true ov) -> run_op fuel h o <> Loop.
Proof.
  intros h fuel o R N E. pose proof (run_op_spec False h o fuel (reached_inv h R) ltac:(tauto)) as S. rewrite E in S. destruct S as [x [ov S]]. exact (N x ov S).
Qed.

(* C28: append_child(node) puts node last (for a fragment: its children, in order), takes it away from where it was, changes nothing else; it
   raises exactly when node is self or an ancestor of self (or self is a Text); on a node that cannot have children it does nothing. *)
Theorem C28_append_child : forall h self node, reached h -> self < hnext h -> node < hnext h ->
  match append_child h self node with
  | Loop => False
  | Exn e _ => (e = AttributeError /\ kd (cell_at h self) = KText) \/ ((exists m, e = ValueError m) /\ above h node self)
  | Ret _ h' => (kids (cell_at h self) = None /\ h' = h) \/
      (kids (cell_at h self) <> None /\ ~ above h node self /\
       ((is_fragment h node /\ emptied h h' self node (children h self ++ children h node)) \/
        (~ is_fragment h node /\ moved h h' self node (removed node (children h self) ++ [node]))))
  end.
Proof.
  intros h self node R Hs Hn. pose proof (reached_inv h R) as I.
  pose proof (append_spec False h self node (i_wf _ _ I) (i_text _ _ I) (inv_frag _ _ I) Hn Hs ltac:(intros [])) as S.
  destruct (append_child h self node) as [t h'|e h'|]; [| |exact S].
  - destruct S as [S | [S1 [S2 [S3 [S4 S5]]]]]; [left; exact S|right]. split; [exact S1|]. split; [rewrite <- abv_above; exact S2|]. exact S5.
  - destruct S as [_ [S | [S1 S2]]]; [left; exact S|right]. split; [exact S1|apply abv_above; exact S2].
Qed.

(* C28: insert_before(node, reference) *)
Theorem C28_insert_before : forall h self node r, reached h -> self < hnext h -> node < hnext h ->
  match insert_before h self node (Some r) with
  | Loop => False
  | Exn e _ => (e = AttributeError /\ kd (cell_at h self) = KText) \/
      ((exists m, e = ValueError m) /\ (kids (cell_at h self) = None \/ (node <> r /\ ~ In r (children h self)) \/ above h node self))
  | Ret _ h' => (r = node /\ h' = h) \/
      (kids (cell_at h self) <> None /\ In r (children h self) /\ ~ above h node self /\
       ((is_fragment h node /\ emptied h h' self node (put_before (Some r) (children h node) (children h self))) \/
        (~ is_fragment h node /\ moved h h' self node (put_before (Some r) [node] (removed node (children h self))))))
  end.
Proof.
  intros h self node r R Hs Hn. pose proof (reached_inv h R) as I.
  pose proof (insert_spec False h self node (Some r) (i_wf _ _ I) (i_text _ _ I) (inv_frag _ _ I) Hn Hs ltac:(intros [])) as S.
  destruct (insert_before h self node (Some r)) as [t h'|e h'|]; [| |exact S].
  - destruct S as [[S1 S2] | [S1 [S2 [S3 [S4 [S5 S6]]]]]]; [left; split; [congruence|exact S2]|right]. split; [exact S1|]. split; [apply S2; reflexivity|]. split; [rewrite <- abv_above; exact S3|]. exact S6.
  - destruct S as [_ [S | [S1 [S2 | [[r' [S2 S3]] | S2]]]]]; [left; exact S|right; auto|right; split; [exact S1|]; injection S2 as <-; auto|right; split; [exact S1|]; right; right; apply abv_above; exact S2].
Qed.
(* insert_before(node, None) behaves as append_child(node), except that a node that cannot have children raises *)
Theorem C28_insert_before_none : forall h self node, reached h -> self < hnext h -> node < hnext h ->
  match insert_before h self node None with
  | Loop => False
  | Exn e _ => (e = AttributeError /\ kd (cell_at h self) = KText) \/ ((exists m, e = ValueError m) /\ (kids (cell_at h self) = None \/ above h node self))
  | Ret _ h' => kids (cell_at h self) <> None /\ ~ above h node self /\
       ((is_fragment h node /\ emptied h h' self node (children h self ++ children h node)) \/
        (~ is_fragment h node /\ moved h h' self node (removed node (children h self) ++ [node])))
  end.
Proof.
  intros h self node R Hs Hn. pose proof (C28_append_child h self node R Hs Hn) as A. unfold insert_before.
  destruct (kind_eqb (kd (cell_at h self)) KText) eqn:K; [left; split; [reflexivity|destruct (kd (cell_at h self)); try discriminate K; reflexivity]|].
  destruct (kids (cell_at h self)) as [ks|] eqn:Q; [|right; split; [eexists; reflexivity|left; reflexivity]].
  destruct (append_child h self node) as [t h'|e h'|]; [| |exact A].
  - destruct A as [[A _] | A]; [discriminate A|]. exact A.
  - destruct A as [A | [A1 A2]]; [left; exact A|right; auto].
Qed.

(* C28: replace_child(new, old) *)
Theorem C28_replace_child : forall h self new old, reached h -> self < hnext h -> new < hnext h ->
  match replace_child h self new old with
  | Loop => False
  | Exn e _ => (e = AttributeError /\ kd (cell_at h self) = KText) \/
      ((exists m, e = ValueError m) /\ (kids (cell_at h self) = None \/ ~ In old (children h self) \/ above h new self))
  | Ret r h' => r = old /\ ((new = old /\ In old (children h self) /\ h' = h) \/ (new <> old /\ ~ above h new self /\ replaced h h' self new old))
  end.
Proof.
  intros h self new old R Hs Hn. pose proof (reached_inv h R) as I.
  pose proof (replace_spec False h self new old (i_wf _ _ I) (i_text _ _ I) (inv_frag _ _ I) Hn Hs ltac:(intros [])) as S.
  destruct (replace_child h self new old) as [t h'|e h'|]; [| |exact S].
  - destruct S as [S1 [S2 | [S2 [S3 [S4 [S5 [S6 S7]]]]]]]; split; [exact S1|left; exact S2|exact S1|right]. split; [exact S2|]. split; [rewrite <- abv_above; exact S4|exact S7].
  - destruct S as [_ [S | [S1 [S2 | [S2 | S2]]]]]; [left; exact S|right; auto|right; auto|right; split; [exact S1|]; right; right; apply abv_above; exact S2].
Qed.

(* C28: remove_child(node) *)
Theorem C28_remove_child : forall h self node, reached h ->
  match remove_child h self node with
  | Loop => False
  | Exn e _ => (e = AttributeError /\ kd (cell_at h self) = KText) \/ ((exists m, e = ValueError m) /\ ~ In node (children h self))
  | Ret _ h' => (kids (cell_at h self) = None /\ h' = h) \/
      (In node (children h self) /\ parent h' node = None /\ (forall y, children h' y = removed node (children h y)) /\
       (forall y, y <> node -> parent h' y = parent h y) /\ same_values h h')
  end.
Proof.
  intros h self node R. pose proof (reached_inv h R) as I. pose proof (remove_spec False h self node (i_wf _ _ I)) as S.
  destruct (remove_child h self node) as [t h'|e h'|]; [| |exact S].
  - destruct S as [S | [S1 [S2 [S3 [S4 [S5 S6]]]]]]; [left; exact S|right]. split; [exact S1|]. split; [exact S5|]. split; [intros y; unfold children; rewrite S4, removed_rem; reflexivity|].
    split; [exact S6|apply frame_values; exact S3].
  - destruct S as [_ S]. exact S.
Qed.

(* C29: a deep clone ends, stands for the same tree, consists of new nodes and new attribute dicts only, has no parent, and leaves every old node and dict as it was. *)
Theorem C29_deep_clone : forall h x ov, reached_full h -> x < hnext h ->
  exists t, denotes h (fun y => y < hnext h) (fun _ => True) x t /\
  exists fuel0, forall fuel, fuel0 <= fuel -> exists r h',
    clone_node fuel h x true ov = Ret r h' /\
    denotes h' (fun y => hnext h <= y < hnext h') (fun d => dnext h <= d < dnext h') r t /\
    parent h' r = None /\ full_forest h' /\
    (forall y, y < hnext h -> cell_at h' y = cell_at h y) /\ (forall d, d < dnext h -> dict_at h' d = dict_at h d).
Proof.
  intros h x ov R Hx. pose proof (reached_full_inv h R) as I.
  destruct (clone_deep_spec h x ov I Hx) as [t [D [fuel0 H]]]. exists t. split; [exact D|]. exists fuel0. intros fuel L.
  destruct (H fuel L) as [r [h' [E [_ [D' [P G]]]]]]. exists r, h'. split; [exact E|]. split; [exact D'|]. split; [exact P|].
  pose proof (clone_node_inv True h x fuel true ov I Hx) as S. rewrite E in S. split; [exact (wf_full_forest h' (i_wf _ _ (proj1 S)))|]. split; [apply G|apply G].
Qed.

(* C29: a shallow clone is one new node with the same values and no children; override_attrs replaces the attributes where the class takes them. *)
Theorem C29_shallow_clone : forall h x ov fuel, reached h -> x < hnext h ->
  exists r h', clone_node fuel h x false ov = Ret r h' /\ hnext h <= r < hnext h' /\ parent h' r = None /\ children h' r = [] /\
    let l := label_at h x in
    label_at h' r = Label (l_kind l) (l_name l) (l_ns l)
      (match l_kind l, ov, l_attrs l with (KNode | KElement | KTemplate), Some o, Some _ => Some o | _, _, a => a end)
      (l_data l) (l_meta l) (l_end l) (l_self l) /\
    (forall y, y < hnext h -> cell_at h' y = cell_at h y) /\ (forall d, d < dnext h -> dict_at h' d = dict_at h d).
Proof.
  intros h x ov fuel R Hx. destruct (clone_shallow_final False h x ov fuel (reached_inv h R) Hx) as [r [h' [E [H1 [H2 [H3 [H4 G]]]]]]].
  exists r, h'. split; [exact E|]. split; [exact H1|]. split; [exact H2|]. split; [exact H3|]. split; [exact H4|]. split; [apply G|apply G].
Qed.

(* running a list of calls *)
Fixpoint run_all (h : heap) (os : list op) : heap :=
  match os with [] => h | o :: os => match run_op 100 h o with Ret _ h' => run_all h' os | Exn _ h' => run_all h' os | Loop => h end end.
Lemma run_all_reached os : forall h, reached h -> reached (run_all h os).
Proof.
  induction os as [|o os IH]; intros h R; [exact R|]. cbn [run_all]. destruct (run_op 100 h o) as [[] h'|e h'|] eqn:E; [apply IH; eapply r_ret; eauto|apply IH; eapply r_exn; eauto|exact R].
Qed.
(* the hypothesis of the full statements, checked on a list of calls *)
Definition safe_op (h : heap) (o : op) : bool :=
  match inserted o with Some n => forallb (fun x => match content h x with Some f => negb (f =? n) | None => true end) (seq 0 (hnext h)) | None => true end.
Fixpoint safe_all (h : heap) (os : list op) : bool :=
  match os with [] => true | o :: os => safe_op h o && match run_op 100 h o with Ret _ h' => safe_all h' os | Exn _ h' => safe_all h' os | Loop => false end end.
Lemma run_all_full os : forall h, reached_full h -> safe_all h os = true -> reached_full (run_all h os).
Proof.
  induction os as [|o os IH]; intros h R S; [exact R|]. cbn [run_all safe_all] in *. apply andb_true_iff in S. destruct S as [S1 S2].
  assert (NC : not_content h o).
  { intros n x E Q. unfold safe_op in S1. rewrite E in S1. rewrite forallb_forall in S1.
    assert (x < hnext h). { destruct (Nat.lt_ge_cases x (hnext h)) as [|G]; [assumption|]. destruct (w_out _ _ _ _ _ _ (i_wf _ _ (reached_full_inv h R)) x G) as [_ [_ Z]]. unfold content in Q. unfold vT in Z. congruence. }
    assert (In x (seq 0 (hnext h))) as Hin by (apply in_seq; lia). apply S1 in Hin. rewrite Q in Hin. rewrite Nat.eqb_refl in Hin. discriminate Hin. }
  destruct (run_op 100 h o) as [[] h'|e h'|] eqn:E; [apply IH; [eapply rf_ret; eauto|exact S2]|apply IH; [eapply rf_exn; eauto|exact S2]|exact R].
Qed.

(* C28 refuted in general: template.template_content handed to an insertion method loses its parent link, and then its own template can be put inside it: a cycle. *)
Theorem C28_template_content_cycle_refuted : exists h x, reached h /\ clos_trans nat (below h) x x.
Proof.
  exists (run_all empty_heap [OpTemplate (u "template") None (Some (u "html")); OpElement (u "div") None (Some (u "html")); OpAppend 2 1; OpAppend 1 0]), 0.
  split; [apply run_all_reached; constructor|]. eapply t_trans; apply t_step.
  - right. vm_compute. reflexivity.
  - left. vm_compute. left. reflexivity.
Qed.
(* ... and cloning that template never ends *)
Theorem C29_deep_clone_may_not_end_refuted : exists h x, reached h /\ x < hnext h /\ forall t, ~ denotes h (fun _ => True) (fun _ => True) x t.
Proof.
  set (h := run_all empty_heap [OpTemplate (u "template") None (Some (u "html")); OpElement (u "div") None (Some (u "html")); OpAppend 2 1; OpAppend 1 0]).
  exists h, 0. split; [apply run_all_reached; constructor|]. split; [vm_compute; lia|].
  assert (T0 : tcon (cell_at h 0) = Some 1) by (vm_compute; reflexivity). assert (K1 : kids (cell_at h 1) = Some [0]) by (vm_compute; reflexivity).
  assert (T1 : tcon (cell_at h 1) = None) by (vm_compute; reflexivity).
  assert (A : forall t, ~ denotes h (fun _ => True) (fun _ => True) 0 t /\ ~ denotes h (fun _ => True) (fun _ => True) 1 t).
  { induction t as [l ch tc IHc IHt] using tree_ind2. split; intros D; apply denotes_unfold in D; destruct D as [_ [_ [_ [D4 D5]]]].
    - rewrite T0 in D5. destruct tc as [t|]; [|exact D5]. exact (proj2 IHt D5).
    - rewrite K1 in D4. destruct ch as [ts|]; [|exact D4]. inversion D4 as [|? t ? ? X Y]; subst. inversion IHc as [|? ? Z _]; subst. exact (proj1 Z X). }
  intros t. exact (proj1 (A t)).
Qed.
(* C29 refuted for override_attrs: a deep clone ignores it. *)
Theorem C29_deep_ignores_override_refuted : exists h x ov r h' fuel, reached_full h /\ clone_node fuel h x true (Some ov) = Ret r h' /\
  l_kind (label_at h x) = KElement /\ l_attrs (label_at h' r) <> Some ov.
Proof.
  set (h := run_all empty_heap [OpElement (u "a") (Some [(u "id", Some (u "x"))]) (Some (u "html"))]).
  assert (Q : match clone_node 10 h 0 true (Some [(u "id", Some (u "y"))]) with Ret r h' => l_attrs (label_at h' r) = Some [(u "id", Some (u "x"))] | _ => False end)
    by (vm_compute; reflexivity).
  destruct (clone_node 10 h 0 true (Some [(u "id", Some (u "y"))])) as [r h'|e h'|] eqn:E; [|destruct Q|destruct Q].
  exists h, 0, [(u "id", Some (u "y"))], r, h', 10.
  split; [apply run_all_full; [constructor|vm_compute; reflexivity]|]. split; [exact E|]. split; [vm_compute; reflexivity|].
  rewrite Q. intros F. vm_compute in F. discriminate F.
Qed.

(* a history that exercises the hypotheses *)
Definition demo : list op :=
  [OpElement (u "div") (Some [(u "id", Some (u "x"))]) (Some (u "html")); OpText (Some (u "hi")); OpElement (u "b") None (Some (u "html"));
   OpTemplate (u "template") None (Some (u "html")); OpFragment; OpComment (Some (u "c")); OpAppend 0 1; OpAppend 0 2; OpInsert 0 3 (Some 2);
   OpAppend 5 6; OpAppend 4 5; OpAppend 2 0; OpReplace 0 2 1; OpClone 0 true None].
Example demo_full : reached_full (run_all empty_heap demo).
Proof. apply run_all_full; [constructor|vm_compute; reflexivity]. Qed.
Example demo_shape : let h := run_all empty_heap demo in
  children h 0 = [2; 3] /\ content h 3 = Some 4 /\ children h 4 = [6] /\ parent h 1 = None /\ parent h 4 = Some 3 /\ 7 < hnext h.
Proof. vm_compute. repeat split; lia. Qed.
(* the call that would put an ancestor below its descendant was refused *)
Example demo_refused : exists m h', run_op 100 (run_all empty_heap (firstn 11 demo)) (OpAppend 2 0) = Exn (ValueError m) h'.
Proof.
  assert (Q : match run_op 100 (run_all empty_heap (firstn 11 demo)) (OpAppend 2 0) with Exn (ValueError _) _ => True | _ => False end) by (vm_compute; exact I).
  destruct (run_op 100 (run_all empty_heap (firstn 11 demo)) (OpAppend 2 0)) as [t h'|[m| | |] h'|]; [destruct Q| |destruct Q|destruct Q|destruct Q|destruct Q]. exists m, h'. reflexivity.
Qed.

Print Assumptions C28_forest. Print Assumptions C28_full_forest_partial. Print Assumptions C28_failing_calls_change_nothing. Print Assumptions C28_editing_terminates.
Print Assumptions C28_append_child. Print Assumptions C28_insert_before. Print Assumptions C28_insert_before_none. Print Assumptions C28_replace_child. Print Assumptions C28_remove_child.
Print Assumptions C29_deep_clone. Print Assumptions C29_shallow_clone. Print Assumptions C28_template_content_cycle_refuted. Print Assumptions C29_deep_clone_may_not_end_refuted.
Print Assumptions C29_deep_ignores_override_refuted.
