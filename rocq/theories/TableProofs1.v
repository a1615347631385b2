(* C67: the shape of the stack while tables are open, and what the searches do over the content above the elements of tables *)
From Coq Require Import List Arith Bool String Lia.
From Verif Require Import Str StrFacts.
From Verif Require Import AaaModel GuardModel CloseModel CloseSpec CloseProofs1 CloseProofs2 CloseProofs3 CloseProofs4 CloseProofs5 CloseProofs6 TableModel TableSpec.
Import ListNotations.
Open Scope string_scope. Open Scope list_scope. Open Scope nat_scope.

Definition nd (n : string) : el := node (u n).
Definition segments : list stack :=
  [[nd "table"]; [nd "caption"; nd "table"]; [nd "colgroup"; nd "table"];
   [nd "tbody"; nd "table"]; [nd "thead"; nd "table"]; [nd "tfoot"; nd "table"];
   [nd "tr"; nd "tbody"; nd "table"]; [nd "tr"; nd "thead"; nd "table"]; [nd "tr"; nd "tfoot"; nd "table"];
   [nd "td"; nd "tr"; nd "tbody"; nd "table"]; [nd "td"; nd "tr"; nd "thead"; nd "table"]; [nd "td"; nd "tr"; nd "tfoot"; nd "table"];
   [nd "th"; nd "tr"; nd "tbody"; nd "table"]; [nd "th"; nd "tr"; nd "thead"; nd "table"]; [nd "th"; nd "tr"; nd "tfoot"; nd "table"]].
Definition holds_tables (m : mode) : Prop := m = InBody \/ m = InCell \/ m = InCaption.
Definition all_content (c : stack) : Prop := Forall (fun e => content e = true) c.
Inductive base (q : bool) : stack -> Prop :=
  | base_body : base q body_open
  | base_in : forall s c b, In s segments -> all_content c -> base q b -> holds_tables (reset (c ++ b)) ->
      (q = false -> in_scope (is "p") ["button"] (c ++ b) = false) -> well_placed (nd "table" :: c ++ b) -> base q (s ++ c ++ b).

(* content *)
Definition tens : list str := map u ten.
Definition plain (e : el) : Prop := name_in tens e = false.
Lemma content_html : forall e, content e = true -> html e = true -> in_strs (en e) (map u ["html"; "head"; "body"; "frameset"; "template"; "table"; "caption"; "colgroup"; "col"; "tbody"; "thead"; "tfoot"; "tr"; "td"; "th"]) = false.
Proof. intros e C H. unfold content in C. rewrite H in C. apply negb_true_iff in C. exact C. Qed.
Lemma content_foreign : forall e, content e = true -> html e = false -> in_strs (en e) breakout_names = false.
Proof. intros e C H. unfold content in C. rewrite H in C. apply andb_true_iff in C as [C _]. apply negb_true_iff in C. rewrite breaks_same. exact C. Qed.
Lemma content_lower : forall e n, content e = true -> html e = false -> one_of ten n = true -> lower (en e) = n -> en e = n.
Proof.
  intros e n C H I L. unfold content in C. rewrite H in C. apply andb_true_iff in C as [_ C]. rewrite L, I in C. cbn [negb orb] in C.
  assert (lower (en e) = en e) as E; [|congruence].
  assert (forall l, forallb (fun x => str_eqb (lower x) x) l = true -> in_strs (en e) l = true -> lower (en e) = en e) as G.
  { clear. intros l. induction l as [|x l IH]; intros F I; [discriminate|]. cbn [forallb] in F. apply andb_true_iff in F as [F1 F2]. unfold in_strs in I. cbn [existsb] in I.
    destruct (str_eqb (en e) x) eqn:E; [|cbn [orb] in I; exact (IH F2 I)]. apply str_eqb_eq in E, F1. congruence. }
  eapply G; [|exact C]. vm_compute. reflexivity.
Qed.
Definition skipped : list string := ["html"; "head"; "body"; "frameset"; "template"; "table"; "caption"; "colgroup"; "col"; "tbody"; "thead"; "tfoot"; "tr"; "td"; "th"].
Lemma content_not : forall L e, content e = true -> sub (map u L) (map u skipped) = true -> html_one_of L e = false.
Proof.
  intros L e C S. unfold html_one_of. destruct (html e) eqn:H; [|reflexivity]. cbn [andb]. unfold one_of.
  exact (not_in_sub _ _ _ S (content_html e C H)).
Qed.
Lemma content_is : forall n e, content e = true -> in_strs (u n) (map u skipped) = true -> is n e = false.
Proof.
  intros n e C S. unfold is. destruct (html e) eqn:H; [|reflexivity]. cbn [andb]. destruct (str_eqb (en e) (u n)) eqn:E; [|reflexivity].
  apply str_eqb_eq in E. pose proof (content_html e C H) as K. rewrite E in K. unfold skipped in S. congruence.
Qed.
Lemma content_element : forall n e, content e = true -> in_strs n (map u skipped) = true -> element n e = false.
Proof.
  intros n e C S. unfold element. destruct (html e) eqn:H; [|reflexivity]. cbn [andb]. destruct (str_eqb (en e) n) eqn:E; [|reflexivity].
  apply str_eqb_eq in E. pose proof (content_html e C H) as K. rewrite E in K. unfold skipped in S. congruence.
Qed.
(* a clean stack: the content is plain *)
Lemma clean_plain : forall c b, all_content c -> clean (c ++ b) = true -> Forall (fun e => name_in tens e = false /\ (html e = false -> in_strs (lower (en e)) tens = false)) c.
Proof.
  induction c as [|e c IH]; intros b C K; [constructor|]. inversion C as [|? ? Ce Cc]; subst. cbn [clean app] in K.
  rewrite (content_is "table" e Ce ltac:(vm_compute; reflexivity)) in K. cbn [orb] in K. apply andb_true_iff in K as [K1 K2].
  constructor; [|exact (IH b Cc K2)]. unfold name_in. destruct (html e) eqn:H.
  - split; [|discriminate]. refine (not_in_sub _ _ _ _ (content_html e Ce H)). vm_compute. reflexivity.
  - cbn [orb] in K1. apply negb_true_iff in K1. split; [|intros _; exact K1].
    destruct (in_strs (en e) tens) eqn:T; [|reflexivity]. exfalso.
    assert (lower (en e) = en e) as L.
    { revert T. generalize (en e). intros n T. unfold tens, ten in T. cbn [map] in T.
      assert (forall l, forallb (fun x => str_eqb (lower x) x) l = true -> in_strs n l = true -> lower n = n) as G.
      { clear. induction l as [|x l IH]; intros F I; [discriminate|]. cbn [forallb] in F. apply andb_true_iff in F as [F1 F2]. unfold in_strs in I. cbn [existsb] in I.
        destruct (str_eqb n x) eqn:E; [|cbn [orb] in I; exact (IH F2 I)]. apply str_eqb_eq in E, F1. congruence. }
      eapply G; [|exact T]. vm_compute. reflexivity. }
    rewrite L in K1. unfold tens in T. unfold one_of in K1. congruence.
Qed.
Lemma plain_named : forall n e, name_in tens e = false -> in_strs n tens = true -> named n e = false.
Proof. intros n e P I. unfold named. destruct (str_eqb (en e) n) eqn:E; [|reflexivity]. apply str_eqb_eq in E. unfold name_in in P. congruence. Qed.
Lemma plain_in : forall L e, name_in tens e = false -> sub L tens = true -> name_in L e = false.
Proof. intros L e P S. unfold name_in in *. exact (not_in_sub _ _ _ S P). Qed.

(* searches over content *)
Section Skip.
Variable c : stack.
Hypothesis C : all_content c.
Lemma skip_reaches : forall p b k, Forall (fun e => p e = false /\ b e = false) c -> reaches p b (c ++ k) = reaches p b k.
Proof. clear C. induction c as [|e t IH]; intros p b k F; [reflexivity|]. inversion F as [|? ? [A B] F']; subst. cbn [reaches app]. rewrite A, B. cbn [orb negb andb]. apply IH. exact F'. Qed.
Lemma skip_pop : forall p k, Forall (fun e => p e = false) c -> pop_until p (c ++ k) = pop_until p k.
Proof. clear C. induction c as [|e t IH]; intros p k F; [reflexivity|]. inversion F; subst. cbn [pop_until app]. rewrite H1. apply IH. assumption. Qed.
Lemma skip_scope_one : forall L k, sub (map u L) (map u skipped) = true -> in_table_scope (html_one_of L) (c ++ k) = in_table_scope (html_one_of L) k.
Proof.
  intros L k S. unfold in_table_scope. apply skip_reaches. eapply Forall_impl; [|exact C]. intros e Ce. split; apply content_not; auto.
Qed.
Lemma skip_scope_is : forall n k, in_strs (u n) (map u skipped) = true -> in_table_scope (is n) (c ++ k) = in_table_scope (is n) k.
Proof. intros n k S. unfold in_table_scope. apply skip_reaches. eapply Forall_impl; [|exact C]. intros e Ce. split; [apply content_is; auto|apply content_not; auto]. Qed.
Lemma skip_scope_element : forall n k, in_strs n (map u skipped) = true -> in_table_scope (element n) (c ++ k) = in_table_scope (element n) k.
Proof. intros n k S. unfold in_table_scope. apply skip_reaches. eapply Forall_impl; [|exact C]. intros e Ce. split; [apply content_element; auto|apply content_not; auto]. Qed.
Lemma skip_pop_one : forall L k, sub (map u L) (map u skipped) = true -> pop_until (html_one_of L) (c ++ k) = pop_until (html_one_of L) k.
Proof. intros L k S. apply skip_pop. eapply Forall_impl; [|exact C]. intros e Ce. apply content_not; auto. Qed.
Lemma skip_pop_is : forall n k, in_strs (u n) (map u skipped) = true -> pop_until (is n) (c ++ k) = pop_until (is n) k.
Proof. intros n k S. apply skip_pop. eapply Forall_impl; [|exact C]. intros e Ce. apply content_is; auto. Qed.
Lemma skip_pop_element : forall n k, in_strs n (map u skipped) = true -> pop_until (element n) (c ++ k) = pop_until (element n) k.
Proof. intros n k S. apply skip_pop. eapply Forall_impl; [|exact C]. intros e Ce. apply content_element; auto. Qed.
Lemma skip_clear : forall L k, sub (map u (L ++ ["template"; "html"])) (map u skipped) = true -> clear_back L (c ++ k) = clear_back L k.
Proof.
  intros L k S. induction C as [|e t Ce Ct IH]; [reflexivity|]. cbn [clear_back app]. rewrite (content_not _ e Ce S). exact (IH Ct).
Qed.
Lemma skip_reset : forall k, reset (c ++ k) = reset k.
Proof.
  intros k. induction C as [|e t Ce Ct IH]; [reflexivity|]. cbn [reset app].
  rewrite !(content_not _ e Ce) by (vm_compute; reflexivity). rewrite !(fun n => content_is n e Ce) by (vm_compute; reflexivity). exact (IH Ct).
Qed.
Lemma skip_has : forall k, has_table (c ++ k) = has_table k.
Proof. intros k. unfold has_table. induction C as [|e t Ce Ct IH]; [reflexivity|]. cbn [existsb app]. rewrite (content_is "table" e Ce ltac:(vm_compute; reflexivity)). exact (IH Ct). Qed.
Lemma skip_based : forall k, based (c ++ k) = based k.
Proof. intros k. induction C as [|e t Ce Ct IH]; [reflexivity|]. cbn [based app]. rewrite Ce. exact (IH Ct). Qed.
(* the parser's searches, over clean content *)
Hypothesis P : Forall (fun e => name_in tens e = false) c.
Lemma skip_last : forall n k, in_strs n tens = true -> last_pos (named n) (c ++ k) = last_pos (named n) k.
Proof. intros n k I. apply last_pos_skip. eapply Forall_impl; [|exact P]. intros e Pe. apply plain_named; auto. Qed.
Lemma skip_cell : forall k, find_cell (c ++ k) = find_cell k.
Proof.
  intros k. induction P as [|e t Pe Pt IH]; [reflexivity|]. cbn [find_cell app]. rewrite (plain_named _ e Pe) by (vm_compute; reflexivity). rewrite (plain_in _ e Pe) by (vm_compute; reflexivity).
  inversion C; subst. exact (IH ltac:(assumption) ltac:(assumption)).
Qed.
Lemma skip_section : forall k, find_section (c ++ k) = find_section k.
Proof.
  intros k. induction P as [|e t Pe Pt IH]; [reflexivity|]. cbn [find_section app]. rewrite !(fun n => plain_named n e Pe) by (vm_compute; reflexivity). rewrite !(fun L => plain_in L e Pe) by (vm_compute; reflexivity).
  inversion C; subst. exact (IH ltac:(assumption) ltac:(assumption)).
Qed.
Lemma skip_until : forall n k, in_strs n tens = true -> close_until n bound_table (c ++ k) = close_until n bound_table k.
Proof.
  intros n k I. rewrite !close_until_p. apply find_skip. eapply Forall_impl; [|exact P]. intros e Pe. split; [apply plain_named; auto|].
  rewrite (plain_in bound_table e Pe) by (vm_compute; reflexivity). apply andb_false_r.
Qed.
Lemma skip_scoped : forall n k, in_strs n tens = true -> find_scoped n (c ++ k) = find_scoped n k.
Proof.
  intros n k I. induction P as [|e t Pe Pt IH]; [reflexivity|]. cbn [find_scoped app]. rewrite !(fun n => plain_named n e Pe) by (assumption || vm_compute; reflexivity).
  rewrite !andb_false_r. inversion C; subst. exact (IH ltac:(assumption) ltac:(assumption)).
Qed.
(* the search that stops at integration points *)
Lemma skip_before : forall n k, in_strs n tens = true -> find_before n bound_table (c ++ k) = if existsb point c then None else find_before n bound_table k.
Proof.
  intros n k I. induction P as [|e t Pe Pt IH]; [reflexivity|]. cbn [find_before app existsb]. rewrite (plain_named n e Pe I). rewrite (plain_in bound_table e Pe) by (vm_compute; reflexivity).
  inversion C; subst. destruct (html e) eqn:H.
  - rewrite (IH ltac:(assumption) ltac:(assumption)). destruct (point e) eqn:Q; [apply point_foreign in Q; congruence|]. reflexivity.
  - rewrite boundary_point. destruct (point e); cbn [orb]; [reflexivity|]. exact (IH ltac:(assumption) ltac:(assumption)).
Qed.
End Skip.

Lemma keep_app : forall a b, keep (List.length b) (a ++ b) = b.
Proof. intros a b. unfold keep. rewrite app_length. replace (List.length a + List.length b - List.length b) with (List.length a + 0) by lia. rewrite Nat.add_0_r. rewrite skipn_app, skipn_all, Nat.sub_diag. reflexivity. Qed.
Lemma keep_len : forall n a b, n = List.length b -> keep n (a ++ b) = b.
Proof. intros n a b ->. apply keep_app. Qed.
Lemma or_same_some : forall t l, or_same (Some t) l = t. Proof. reflexivity. Qed.
Lemma or_same_none : forall l, or_same None l = l. Proof. reflexivity. Qed.
