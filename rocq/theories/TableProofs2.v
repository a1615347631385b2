(* C67: the repair for the start tags of tables (_repair_table_for_start), on a stack of content above the elements of a table *)
From Coq Require Import List Arith Bool String Lia.
From Verif Require Import Str StrFacts.
From Verif Require Import AaaModel GuardModel CloseModel CloseSpec CloseProofs1 CloseProofs2 CloseProofs3 CloseProofs4 CloseProofs5 CloseProofs6 TableModel TableSpec TableProofs1.
Import ListNotations.
Open Scope string_scope. Open Scope list_scope. Open Scope nat_scope.

Definition orders (order : list str) : Prop := forall n, in_strs n order = in_strs n section_names.
Lemma orders_in : forall order n, orders order -> In n order -> in_strs n section_names = true.
Proof. intros o n O I. rewrite <- O. unfold in_strs. apply existsb_exists. exists n. split; [exact I|apply str_eqb_refl]. Qed.
Lemma section_cases : forall n, in_strs n section_names = true -> n = u "tbody" \/ n = u "thead" \/ n = u "tfoot".
Proof.
  intros n I. unfold in_strs, section_names in I. cbn [map existsb] in I. rewrite !orb_true_iff in I. destruct I as [I|[I|[I|I]]]; [| | |discriminate]; apply str_eqb_eq in I; auto.
Qed.
Lemma section_ten : forall n, in_strs n section_names = true -> in_strs n tens = true.
Proof. intros n I. refine (in_sub _ _ I _ _). vm_compute. reflexivity. Qed.
(* stacks on which the sections are closed *)
Lemma until_stop : forall n c k l, in_strs n tens = true -> all_content c -> Forall (fun e => name_in tens e = false) c -> close_until n bound_table k = None -> k = l -> or_same (close_until n bound_table (c ++ k)) (c ++ k) = c ++ l.
Proof. intros n c k l I C P H <-. rewrite skip_until by assumption. rewrite H. reflexivity. Qed.
Lemma sections_none : forall order k, Forall (fun n => close_until n bound_table k = None) order -> close_sections order k = k.
Proof. induction order as [|n o IH]; intros k F; [reflexivity|]. inversion F; subst. unfold close_sections in *. cbn [fold_left]. rewrite H1. exact (IH k H2). Qed.
Lemma sections_one : forall order sec k l, In sec order -> close_until sec bound_table k = Some l -> Forall (fun n => n <> sec -> close_until n bound_table k = None) order ->
  Forall (fun n => close_until n bound_table l = None) order -> (forall n, In n order -> {n = sec} + {n <> sec}) -> close_sections order k = l.
Proof.
  induction order as [|n o IH]; intros sec k l I H F G D; [contradiction|]. inversion F; subst. inversion G; subst. unfold close_sections in *. cbn [fold_left].
  destruct (D n (or_introl eq_refl)) as [->|N].
  - rewrite H. apply sections_none. exact H5.
  - rewrite (H2 N). cbn [or_same]. apply (IH sec); auto. destruct I as [I|I]; [congruence|exact I]. intros x X. apply D. right. exact X.
Qed.
Lemma str_dec : forall a b : str, {a = b} + {a <> b}.
Proof. intros a b. destruct (str_eqb a b) eqn:E; [left; apply str_eqb_eq; exact E|right; intros ->; rewrite str_eqb_refl in E; discriminate]. Qed.
Lemma in_order : forall order n, orders order -> in_strs n section_names = true -> In n order.
Proof. intros o n O I. rewrite <- O in I. unfold in_strs in I. apply existsb_exists in I as (x & X & E). apply str_eqb_eq in E. subst. exact X. Qed.
Ltac concrete := vm_compute; reflexivity.
Lemma sections_table : forall order c k l, orders order -> all_content c -> Forall (fun e => name_in tens e = false) c -> (k = [nd "table"] \/ k = [nd "caption"; nd "table"] \/ k = [nd "colgroup"; nd "table"]) ->
  close_sections order (c ++ k ++ l) = c ++ k ++ l.
Proof.
  intros o c k l O C P K. apply sections_none. apply Forall_forall. intros n I. pose proof (orders_in o n O I) as J. rewrite skip_until by (assumption || exact (section_ten n J)).
  destruct (section_cases n J) as [->|[->| ->]]; destruct K as [->|[->| ->]]; reflexivity.
Qed.
Lemma sections_section : forall order c sec l, orders order -> all_content c -> Forall (fun e => name_in tens e = false) c -> in_strs (u sec) section_names = true -> close_sections order (c ++ nd sec :: nd "table" :: l) = nd "table" :: l.
Proof.
  intros o c sec l O C P I. apply sections_one with (sec := u sec).
  - apply in_order; assumption.
  - rewrite skip_until by (assumption || exact (section_ten _ I)). cbn [close_until]. unfold named. cbn [en nd node]. rewrite str_eqb_refl. reflexivity.
  - apply Forall_forall. intros n X N. pose proof (orders_in o n O X) as J. rewrite skip_until by (assumption || exact (section_ten n J)).
    apply section_cases in I as [E|[E|E]]; unfold nd; rewrite E in N |- *; destruct (section_cases n J) as [->|[->| ->]]; try (exfalso; apply N; reflexivity); reflexivity.
  - apply Forall_forall. intros n X. pose proof (orders_in o n O X) as J. destruct (section_cases n J) as [->|[->| ->]]; reflexivity.
  - intros n X. apply str_dec.
Qed.
Lemma sections_now : forall order sec l, orders order -> in_strs (u sec) section_names = true -> close_sections order (nd sec :: nd "table" :: l) = nd "table" :: l.
Proof. intros o sec l O I. apply (sections_section o [] sec l O); [constructor|constructor|exact I]. Qed.
Definition cellish (s : stack) : bool := match s with [_; _; _; _] => true | _ => false end.
Definition marks_after (s : stack) (f : list mark) : list mark := if cellish s then clear_marker f else f.
Ltac segs I := cbn [segments In] in I; repeat match type of I with _ \/ _ => destruct I as [I|I] | False => contradiction I end; subst; cbn [app] in *.
(* the cell, the row and the section are closed *)
Lemma cell_closed : forall c s l g f, all_content c -> Forall (fun e => name_in tens e = false) c -> In s segments ->
  close_cell (St (c ++ s ++ l) g f) = St (if cellish s then tl s ++ l else c ++ s ++ l) g (marks_after s f).
Proof.
  intros c s l g f C P I. unfold close_cell, marks_after. cbn [sk]. rewrite skip_cell by assumption. segs I; reflexivity.
Qed.
Lemma row_closed : forall c s l, all_content c -> Forall (fun e => name_in tens e = false) c -> In s segments -> cellish s = false ->
  close_row (c ++ s ++ l) = match s with [_; x; y] => x :: y :: l | _ => c ++ s ++ l end.
Proof. intros c s l C P I E. unfold close_row. rewrite skip_until by (assumption || concrete). segs I; try discriminate E; reflexivity. Qed.
Lemma row_closed' : forall a b d e l, In [a; b; d; e] segments -> close_row (b :: d :: e :: l) = d :: e :: l.
Proof. intros a b d e l I. cbn [segments In] in I. repeat match type of I with _ \/ _ => destruct I as [I|I] | False => contradiction I end; try discriminate I; injection I as <- <- <- <-; reflexivity. Qed.
Definition top_kind (s : stack) : bool := match s with e :: _ => in_strs (en e) (map u ["table"; "caption"; "colgroup"]) | [] => false end.
Lemma cellish_not_top : forall s, In s segments -> cellish s = true -> top_kind s = false.
Proof. intros s I E. segs I; try discriminate E; reflexivity. Qed.
Lemma no_content : all_content []. Proof. constructor. Qed.
Lemma no_plain : Forall (fun e => name_in tens e = false) []. Proof. constructor. Qed.
Lemma down : forall order c s l g f, orders order -> all_content c -> Forall (fun e => name_in tens e = false) c -> In s segments ->
  (let s1 := close_cell (St (c ++ s ++ l) g f) in with_sk (close_sections order (close_row (sk s1))) s1) = St (if top_kind s then c ++ s ++ l else nd "table" :: l) g (marks_after s f).
Proof.
  intros o c s l g f O C P I. cbv zeta. rewrite cell_closed by assumption. unfold with_sk. cbn [sk colg fm].
  destruct (cellish s) eqn:E.
  - segs I; try discriminate E; cbn [tl app]; match goal with |- context [close_row (?a :: ?b :: ?d :: ?k)] => change (close_row (a :: b :: d :: k)) with (b :: d :: k) end;
      rewrite sections_now by (assumption || concrete); reflexivity.
  - rewrite row_closed by assumption. segs I; try discriminate E; unfold marks_after; cbn [cellish];
    first [ rewrite sections_now by (assumption || concrete); reflexivity
          | rewrite (sections_section o c _ l) by (assumption || concrete); reflexivity
          | pose proof (sections_table o c [nd "caption"; nd "table"] l O C P ltac:(auto)) as W; cbn [app] in W; rewrite W; reflexivity
          | pose proof (sections_table o c [nd "colgroup"; nd "table"] l O C P ltac:(auto)) as W; cbn [app] in W; rewrite W; reflexivity
          | pose proof (sections_table o c [nd "table"] l O C P ltac:(auto)) as W; cbn [app] in W; rewrite W; reflexivity ].
Qed.
Lemma pos_table : forall s l, In s segments -> last_pos (named (u "table")) (s ++ l) = S (List.length l).
Proof. intros s l I. segs I; reflexivity. Qed.
Lemma to_table_seg : forall a s l, In s segments -> keep (S (List.length l)) (a ++ s ++ l) = nd "table" :: l.
Proof.
  intros a s l I. assert (exists s', s = s' ++ [nd "table"]) as (s' & ->).
  { segs I; match goal with |- exists s', ?s = _ => exists (removelast s); reflexivity end. }
  rewrite <- app_assoc. rewrite app_assoc. apply (keep_app (a ++ s') (nd "table" :: l)).
Qed.
(* a select above the table *)
Lemma last_pos_app : forall p a b, last_pos p (a ++ b) = if existsb p a then last_pos p a + List.length b else last_pos p b.
Proof.
  intros p a b. induction a as [|e a IH]; [reflexivity|]. cbn [last_pos app existsb]. destruct (p e); cbn [orb]; [rewrite app_comm_cons, app_length; reflexivity|exact IH].
Qed.
Lemma last_split : forall p a, existsb p a = true -> exists x e y, a = x ++ e :: y /\ last_pos p a = S (List.length y) /\ p e = true.
Proof.
  intros p a. induction a as [|e a IH]; intros H; [discriminate|]. cbn [existsb] in H. cbn [last_pos]. destruct (p e) eqn:E; [exists [], e, a; auto|].
  destruct (IH H) as (x & d & y & -> & L & D). exists (e :: x), d, y. auto.
Qed.
Lemma last_pos_pos : forall p a, existsb p a = false -> last_pos p a = 0.
Proof. intros p a. induction a as [|e a IH]; intros H; [reflexivity|]. cbn [existsb] in H. cbn [last_pos]. destruct (p e); [discriminate|exact (IH H)]. Qed.
Definition selected (p : el -> bool) (table : nat) (k : stack) : stack := let select := last_pos p k in if negb (table =? 0) && (table <? select) then keep (select - 1) k else k.
(* what is cut is content: there is no select among the elements of the table *)
Lemma selected_content : forall p c s l, In s segments -> (forall n, in_strs (u n) tens = true -> p (nd n) = false) ->
  exists x c', c = x ++ c' /\ selected p (S (List.length l)) (c ++ s ++ l) = c' ++ s ++ l.
Proof.
  intros p c s l I N. unfold selected. cbv zeta. cbn [Nat.eqb negb andb]. rewrite last_pos_app. destruct (existsb p c) eqn:E.
  - destruct (last_split p c E) as (x & e & y & -> & L & _). rewrite L. exists (x ++ [e]), y. split; [rewrite <- app_assoc; reflexivity|].
    assert (S (List.length l) <? S (List.length y) + List.length (s ++ l) = true) as ->.
    { apply Nat.ltb_lt. rewrite app_length. segs I; cbn [List.length]; lia. }
    replace (x ++ e :: y) with ((x ++ [e]) ++ y) by (rewrite <- app_assoc; reflexivity). rewrite <- app_assoc. apply keep_len. rewrite !app_length. lia.
  - exists [], c. split; [reflexivity|].
    assert (S (List.length l) <? last_pos p (s ++ l) = false) as ->; [|reflexivity].
    apply Nat.ltb_ge. assert (existsb p s = false) as Es.
    { segs I; cbn [existsb]; rewrite !N by (vm_compute; reflexivity); reflexivity. }
    rewrite last_pos_app, Es. pose proof (last_pos_le p l). lia.
Qed.
