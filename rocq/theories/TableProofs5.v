(* C67: the invariant; the shape of the stack and its consequences *)
From Coq Require Import List Arith Bool String Lia.
From Verif Require Import Str StrFacts.
From Verif Require Import AaaModel GuardModel CloseModel CloseSpec CloseProofs1 CloseProofs2 CloseProofs3 CloseProofs4 CloseProofs5 CloseProofs6 CloseProofs7 TableModel TableSpec TableProofs1 TableProofs2 TableProofs3 TableProofs4.
Import ListNotations.
Open Scope string_scope. Open Scope list_scope. Open Scope nat_scope.

Definition under (q : bool) (k : stack) : Prop :=
  exists c b, k = c ++ b /\ all_content c /\ base q b /\ holds_tables (reset k) /\ (q = false -> in_scope (is "p") ["button"] k = false) /\ well_placed (nd "table" :: k).
Definition shaped (q : bool) (l : stack) : Prop :=
  (exists c, l = c ++ body_open /\ all_content c) \/ (exists c s k, l = c ++ s ++ k /\ all_content c /\ In s segments /\ (grouped s = true -> c = []) /\ under q k).
Lemma base_under : forall q s k, In s segments -> under q k -> base q (s ++ k).
Proof. intros q s k I (c & b & -> & C & B & H & P & W). apply base_in; assumption. Qed.
Lemma seg_grouped : forall s k, In s segments -> grouped (s ++ k) = grouped s.
Proof. intros s k I. segs I; reflexivity. Qed.
Lemma shaped_of : forall q c b, all_content c -> base q b -> (grouped b = true -> c = []) -> shaped q (c ++ b).
Proof.
  intros q c b C B G. destruct B as [|s d b I D B H P W].
  - left. exists c. auto.
  - right. exists c, s, (d ++ b). split; [reflexivity|]. split; [exact C|]. split; [exact I|]. split; [rewrite seg_grouped in G by exact I; exact G|]. exists d, b. exact (conj eq_refl (conj D (conj B (conj H (conj P W))))).
Qed.
Lemma shaped_base : forall q l, shaped q l -> exists c b, l = c ++ b /\ all_content c /\ base q b /\ (grouped b = true -> c = []).
Proof.
  intros q l [(c & -> & C)|(c & s & k & -> & C & I & G & U)].
  - exists c, body_open. split; [reflexivity|]. split; [exact C|]. split; [constructor|]. discriminate.
  - exists c, (s ++ k). split; [reflexivity|]. split; [exact C|]. split; [apply base_under; assumption|]. rewrite seg_grouped by exact I. exact G.
Qed.
Lemma base_shaped : forall q b, base q b -> shaped q b.
Proof. intros q b B. apply (shaped_of q [] b no_content B). reflexivity. Qed.
(* the last element of body_open *)
Lemma seg_ends : forall s, In s segments -> exists s', s = s' ++ [nd "table"].
Proof. intros s I. segs I; match goal with |- exists s', ?s = _ => exists (removelast s); reflexivity end. Qed.
Lemma under_cut : forall q c s k, all_content c -> In s segments -> under q k -> well_placed (c ++ s ++ k) -> well_placed (nd "table" :: k).
Proof. intros q c s k C I (c' & b & -> & _ & _ & _ & _ & W) _. exact W. Qed.
Lemma well_placed_suffix : forall a l, well_placed (a ++ l) -> well_placed l.
Proof. induction a as [|e a IH]; intros l W; [exact W|]. destruct W as [_ W]. exact (IH l W). Qed.
Lemma single_suffix : forall a l, single_p (a ++ l) -> single_p l.
Proof. induction a as [|e a IH]; intros l W; [exact W|]. destruct W as [_ W]. exact (IH l W). Qed.
(* every element is an HTML element or content; the bottom *)
Definition known (e : el) : Prop := html e = true \/ content e = true.
Lemma content_known : forall c, all_content c -> Forall known c.
Proof. intros c C. eapply Forall_impl; [|exact C]. intros e H. right. exact H. Qed.
Lemma seg_html : forall s, In s segments -> Forall (fun e => html e = true) s.
Proof. intros s I. segs I; repeat constructor. Qed.
Lemma base_known : forall q b, base q b -> Forall known b /\ bottom b.
Proof.
  intros q b B. induction B as [|s c b I C B [IH1 IH2] H P W].
  - split; [repeat constructor|exists []; reflexivity].
  - split.
    + apply Forall_app. split; [eapply Forall_impl; [|exact (seg_html s I)]; intros e E; left; exact E|]. apply Forall_app. split; [exact (content_known c C)|exact IH1].
    + destruct IH2 as [a ->]. exists (s ++ c ++ a). rewrite !app_assoc. reflexivity.
Qed.
Lemma shaped_known : forall q l, shaped q l -> Forall known l /\ bottom l.
Proof.
  intros q l S. destruct (shaped_base q l S) as (c & b & -> & C & B & _). destruct (base_known q b B) as [K [a ->]]. split; [apply Forall_app; split; [exact (content_known c C)|exact K]|]. exists (c ++ a). rewrite app_assoc. reflexivity.
Qed.
Lemma known_foreign_name : forall n e, known e -> html e = false -> in_strs n breakout_names = true -> named n e = false.
Proof.
  intros n e [K|K] H B; [congruence|]. unfold named. destruct (str_eqb (en e) n) eqn:E; [|reflexivity]. apply str_eqb_eq in E. pose proof (content_foreign e K H) as X. rewrite E in X. congruence.
Qed.
(* the modes *)
Lemma reset_body : forall c, all_content c -> reset (c ++ body_open) = InBody.
Proof. intros c C. rewrite skip_reset by exact C. reflexivity. Qed.
Lemma reset_seg : forall c s k, all_content c -> In s segments -> reset (c ++ s ++ k) = reset s.
Proof. intros c s k C I. rewrite skip_reset by exact C. segs I; reflexivity. Qed.
Lemma under_shaped : forall q k, under q k -> shaped q k.
Proof.
  intros q k (c & b & -> & C & B & H & _). apply shaped_of; [exact C|exact B|]. intros G. exfalso. rewrite skip_reset in H by exact C.
  destruct B as [|s d b I D B H' P W]; [discriminate G|]. rewrite seg_grouped in G by exact I. segs I; try (vm_compute in G; discriminate G). destruct H as [H|[H|H]]; vm_compute in H; discriminate H.
Qed.

Record tinv (q : bool) (s : state) (p : st) : Prop := {
  t_same : sk p = sst s; t_shape : shaped q (sst s); t_mode : md s = reset (sst s); t_placed : well_placed (sst s); t_single : single_p (sst s);
  t_group : match sst s with e :: _ => is "colgroup" e = true -> colg p = true | [] => True end }.
(* the stack after a tag of a table *)
Lemma tinv_seg : forall q s k f g f', In s segments -> under q k -> single_p k -> (grouped s = true -> g = true) -> tinv q (State (reset (s ++ k)) (s ++ k) f) (St (s ++ k) g f').
Proof.
  intros q s k f g f' I U S G. constructor; cbn [sk sst md colg].
  - reflexivity.
  - apply base_shaped. apply base_under; assumption.
  - reflexivity.
  - destruct U as (c & b & -> & _ & _ & _ & _ & W). destruct W as [W W']. segs I; repeat (split; [intros _; (reflexivity || exact (W eq_refl))|]); exact W'.
  - segs I; repeat (split; [intros X; vm_compute in X; discriminate X|]); exact S.
  - segs I; try (intros X; vm_compute in X; discriminate X). intros _. apply G. reflexivity.
Qed.
(* after content is opened or closed *)
Lemma tinv_content : forall q c b f g f', all_content c -> base q b -> (grouped b = true -> c = []) -> well_placed (c ++ b) -> single_p (c ++ b) -> (grouped b = true -> g = true) ->
  tinv q (State (reset (c ++ b)) (c ++ b) f) (St (c ++ b) g f').
Proof.
  intros q c b f g f' C B G W S Gg. constructor; cbn [sk sst md colg]; try assumption; try reflexivity.
  - apply shaped_of; assumption.
  - destruct c as [|e c]; cbn [app].
    + destruct B as [|s d b I D B H P Wb]; [intros X; vm_compute in X; discriminate X|]. rewrite seg_grouped in Gg by exact I. segs I; try (intros X; vm_compute in X; discriminate X). intros _. apply Gg. reflexivity.
    + inversion C; subst. rewrite content_is by (assumption || concrete). discriminate.
Qed.
(* names *)
Lemma ten_svg : forall n, one_of ten n = true -> svg_name n = n /\ lower n = n.
Proof. intros n N. names N; split; vm_compute; reflexivity. Qed.
Lemma nine_ten : forall n, one_of nine n = true -> one_of ten n = true.
Proof. intros n N. names N; reflexivity. Qed.
Lemma nine_breaks : forall n, one_of nine n = true -> in_strs n breakout_names = false.
Proof. intros n N. refine (in_apart _ _ N _ _). concrete. Qed.
Lemma ten_repair : forall q n l, one_of nine n = true -> repair q n l = l.
Proof.
  intros q n l N. unfold repair. assert (in_strs n p_closing = false) as -> by (refine (in_apart _ _ N _ _); concrete).
  assert (str_eqb n (u "li") = false) as -> by (names N; reflexivity). assert (in_strs n (map u ["dd"; "dt"]) = false) as -> by (refine (in_apart _ _ N _ _); concrete). assert (in_strs n headings = false) as -> by (refine (in_apart _ _ N _ _); concrete). reflexivity.
Qed.
Lemma ten_rules : forall n l, one_of ten n = true -> by_html_rules n l = html_text n l.
Proof.
  intros n [|e l] N; [reflexivity|]. cbn [by_html_rules html_text]. assert (in_strs n (map u ["mglyph"; "malignmark"]) = false) as A by (refine (in_apart _ _ N _ _); concrete).
  assert (one_of ["svg"] n = false) as B by (refine (in_apart _ _ N _ _); concrete). rewrite A, B. unfold one_of at 1. rewrite A.
  assert (html_integration_point e || mathml_text_point e = html_point e || text_point e) as X.
  { unfold html_point, text_point, html_integration_point, mathml_text_point, named, name_in, one_of. destruct (es e); try reflexivity. change (map u ["annotation-xml"]) with [u "annotation-xml"]. rewrite in_one. reflexivity. }
  rewrite !andb_true_r. destruct (html e); [reflexivity|]. cbn [orb]. rewrite <- orb_assoc. rewrite orb_comm. assert (match es e with Math => _ | _ => false end = false) as -> by (destruct (es e); try reflexivity; apply andb_false_r). cbn [orb].
  exact X.
Qed.
