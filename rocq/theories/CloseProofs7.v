(* PROOFS for C66, part 7: histories *)
From Coq Require Import List Arith Bool String Lia.
From Verif Require Import Str StrFacts SerTreeProofs.
From Verif Require Import AaaModel GuardModel CloseModel CloseSpec CloseProofs1 CloseProofs2 CloseProofs3 CloseProofs4 CloseProofs5 CloseProofs6.
Import ListNotations.
Open Scope string_scope. Open Scope list_scope. Open Scope nat_scope.

Definition plain_el (e : el) : bool := negb (formatting e).
Lemma well_placed_chained : forall l, well_placed l -> chained l.
Proof.
  induction l as [|e t IH]; intros H; [constructor|]. destruct H as [H H']. split; [|exact (IH H')]. intros He N. specialize (H He). destruct t as [|f t]; [congruence|exact H].
Qed.
Lemma chained_well_placed : forall l, chained l -> well_placed l.
Proof.
  induction l as [|e t IH]; intros H; [constructor|]. destruct H as [H H']. split; [|exact (IH H')]. intros He. destruct t as [|f t]; [exact I|]. apply (H He). discriminate.
Qed.
Lemma formatting_names_of : forall e X, formatting e = true -> apart formatting_names X = true -> in_strs (en e) X = false.
Proof. intros e X H A. unfold formatting in H. apply andb_true_iff in H. destruct H as [_ H]. exact (apart_in _ _ _ A H). Qed.
Lemma formatting_html : forall e, formatting e = true -> html e = true.
Proof. intros e H. unfold formatting in H. apply andb_true_iff in H. exact (proj1 H). Qed.
Lemma lower_formatting : forall n, in_strs n formatting_names = true -> lower n = n.
Proof.
  intros n H. apply in_strs_In in H. assert (forallb (fun x => str_eqb (lower x) x) formatting_names = true) as F by (vm_compute; reflexivity). rewrite forallb_forall in F. apply str_eqb_eq. exact (F n H).
Qed.
Lemma formatting_okel : forall e, formatting e = true -> okel e.
Proof.
  intros e H. unfold okel. rewrite (formatting_html e H). unfold formatting in H. apply andb_true_iff in H. destruct H as [_ H]. change (in_strs (en e) formatting_names = true) in H. split; [exact (lower_formatting _ H)|]. left. rewrite in_strs_app, H. reflexivity.
Qed.
Lemma reaches_plain : forall p b l, (forall e, formatting e = true -> p e = false /\ b e = false) -> reaches p b l = reaches p b (filter plain_el l).
Proof.
  intros p b l H. induction l as [|e t IH]; [reflexivity|]. cbn [filter reaches]. unfold plain_el at 1. destruct (formatting e) eqn:F; cbn [negb reaches].
  - destruct (H e F) as [A B]. rewrite A, B. exact IH.
  - rewrite IH. reflexivity.
Qed.
Lemma formatting_p : forall e, formatting e = true -> is "p" e = false /\ ends_scope ["button"] e = false.
Proof.
  intros e H. split.
  - unfold is. rewrite <- in_one, (formatting_names_of e [u "p"] H) by (vm_compute; reflexivity). apply andb_false_r.
  - rewrite (ends_html _ _ (formatting_html e H)). apply (formatting_names_of e _ H). vm_compute. reflexivity.
Qed.
Lemma formatting_def : forall e, formatting e = true -> definition e = false /\ dl_stop e = false.
Proof.
  intros e H. split.
  - unfold definition, is. rewrite <- !in_one, (formatting_names_of e [u "dd"] H), (formatting_names_of e [u "dt"] H) by (vm_compute; reflexivity). rewrite !andb_false_r. reflexivity.
  - unfold dl_stop. rewrite (ends_html _ _ (formatting_html e H)), (formatting_names_of e _ H) by (vm_compute; reflexivity). apply andb_false_r.
Qed.
Lemma formatting_block : forall e, formatting e = true -> block e = false.
Proof. intros e H. unfold block, name_in, named. rewrite <- in_one, (formatting_names_of e p_closing H), (formatting_names_of e [u "body"] H) by (vm_compute; reflexivity). apply andb_false_r. Qed.
Lemma nopara_plain : forall l, nopara l <-> nopara (filter plain_el l).
Proof.
  induction l as [|e t IH]; [tauto|]. cbn [filter]. unfold plain_el at 1. destruct (formatting e) eqn:F; cbn [negb nopara].
  - rewrite (formatting_block e F). intuition discriminate.
  - unfold in_scope. rewrite (reaches_plain _ _ t formatting_p). fold plain_el. intuition.
Qed.
Lemma noitem_plain : forall l, noitem l <-> noitem (filter plain_el l).
Proof.
  induction l as [|e t IH]; [tauto|]. cbn [filter]. unfold plain_el at 1. destruct (formatting e) eqn:F; cbn [negb noitem].
  - rewrite (proj1 (formatting_def e F)). intuition discriminate.
  - rewrite (reaches_plain _ _ t formatting_def). intuition.
Qed.
Lemma reformat_inv : forall l l', inv l -> reformatted l l' -> inv l'.
Proof.
  intros l l' [A B C D E] [a [a' [-> [-> [F W]]]]].
  assert (filter plain_el (a ++ body_open) = filter plain_el (a' ++ body_open)) as FE by (rewrite !filter_app; f_equal; exact F).
  constructor.
  - apply well_placed_chained. exact W.
  - rewrite Forall_forall in *. intros e Ie. destruct (formatting e) eqn:X; [exact (formatting_okel e X)|]. apply B.
    assert (In e (filter plain_el (a' ++ body_open))) as J by (apply filter_In; split; [exact Ie|unfold plain_el; rewrite X; reflexivity]). rewrite <- FE in J. apply filter_In in J. exact (proj1 J).
  - apply (proj2 (nopara_plain _)). rewrite <- FE. apply (proj1 (nopara_plain _)). exact C.
  - apply (proj2 (noitem_plain _)). rewrite <- FE. apply (proj1 (noitem_plain _)). exact D.
  - exists a'. reflexivity.
Qed.
Lemma inv_start : inv body_open.
Proof.
  constructor.
  - split; [intros _ _; reflexivity|]. split; [intros _ H; destruct (H eq_refl)|exact I].
  - constructor; [|constructor; [|constructor]]; (split; [vm_compute; reflexivity|left; vm_compute; reflexivity]).
  - split; [intros _; vm_compute; reflexivity|]. split; [intros _; vm_compute; reflexivity|exact I].
  - split; [intros _; vm_compute; reflexivity|]. split; [intros _; vm_compute; reflexivity|exact I].
  - exists []. reflexivity.
Qed.
Lemma tag_parts : forall n, tag_name n = true -> lower n = n /\ ordinary n = true.
Proof. intros n H. unfold tag_name in H. apply andb_true_iff in H. destruct H as [H K]. apply str_eqb_eq in H. auto. Qed.
Lemma step_inv : forall e l, inv l -> ok_event e l -> inv (fst (step std_start std_end e l)).
Proof.
  intros [n c s|n|l'] l I K; cbn [step ok_event] in *.
  - destruct K as [T K]. apply tag_parts in T. destruct T. apply start_inv; assumption.
  - destruct K as [T K]. apply tag_parts in T. destruct T. apply end_inv; assumption.
  - exact (reformat_inv l l' I K).
Qed.
Lemma step_follows : forall q e l, inv l -> ok_event e l -> step (start_tag q) end_tag e l = step std_start std_end e l.
Proof.
  intros q [n c s|n|l'] l I K; cbn [step ok_event] in *; [| |reflexivity].
  - destruct K as [T K]. apply tag_parts in T. destruct T. apply start_follows; assumption.
  - destruct K as [T K]. apply tag_parts in T. destruct T. apply end_follows; assumption.
Qed.
Lemma run_follows : forall q es l, inv l -> ok_events es l -> by_parser q es l = by_standard es l /\ inv (fst (by_standard es l)).
Proof.
  intros q es. induction es as [|e es IH]; intros l I K; [split; [reflexivity|exact I]|]. destruct K as [K Ks]. pose proof (step_inv e l I K) as I'. pose proof (step_follows q e l I K) as F.
  unfold by_parser, by_standard in *. cbn [run]. rewrite F. destruct (step std_start std_end e l) as [m x]. cbn [fst] in *. destruct (IH m I' Ks) as [E J]. rewrite E. destruct (run std_start std_end es m) as [m' x']. split; [reflexivity|exact J].
Qed.
Lemma reached_inv : forall l, reached l -> inv l.
Proof. intros l [es [K <-]]. exact (proj2 (run_follows false es body_open inv_start K)). Qed.
