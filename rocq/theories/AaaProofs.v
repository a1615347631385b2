(* PROOFS for C62, part 1: lists, the list of active formatting elements and its live part *)
From Coq Require Import List Arith Bool Lia.
From Verif Require Import Str StrFacts FinishModel FinishProofs AaaModel AaaSpec.
Import ListNotations.
Open Scope list_scope. Open Scope nat_scope.

(* lists by position *)
Lemma nth_mid {A} (a : list A) x b : nth_error (a ++ x :: b) (List.length a) = Some x.
Proof. induction a; cbn; auto. Qed.
Lemma put_mid {A} (a : list A) x v b : put (List.length a) v (a ++ x :: b) = a ++ v :: b.
Proof. induction a; cbn; congruence. Qed.
Lemma delete_mid {A} (a : list A) x b : delete (List.length a) (a ++ x :: b) = a ++ b.
Proof. unfold delete. rewrite firstn_app, firstn_all, Nat.sub_diag. cbn. rewrite app_nil_r. f_equal. induction a; cbn in *; auto. Qed.
Lemma insert_mid {A} (a : list A) v b : insert (List.length a) v (a ++ b) = a ++ v :: b.
Proof. unfold insert. rewrite firstn_app, firstn_all, Nat.sub_diag. cbn. rewrite app_nil_r. do 2 f_equal. induction a; cbn in *; auto. Qed.
Lemma index_mid x a b : ~ In x a -> index_of x (a ++ x :: b) = Some (List.length a).
Proof. induction a as [|y a IH]; cbn; intros H; [now rewrite Nat.eqb_refl|]. destruct (Nat.eqb_spec y x) as [->|]; [tauto|]. rewrite IH by tauto. reflexivity. Qed.
Lemma last_opt_snoc {A} (a : list A) x : last_opt (a ++ [x]) = Some x.
Proof. unfold last_opt. rewrite app_length. cbn. replace (List.length a + 1 - 1) with (List.length a) by lia. apply nth_mid. Qed.

(* the standard's operations on decomposed lists *)
Definition el (e : entry) : item := El (e_node e) (e_name e) (e_token e).
Lemma nodes_app a b : nodes (a ++ b) = nodes a ++ nodes b. Proof. apply flat_map_app. Qed.
Lemma nodes_in x l : In x (nodes l) <-> exists n k, In (El x n k) l.
Proof.
  unfold nodes. rewrite in_flat_map. split.
  - intros (i & Hi & Hx). destruct i as [|y n k|]; cbn in Hx; try tauto. destruct Hx as [->|[]]. eauto.
  - intros (n & k & H). exists (El x n k). cbn. auto.
Qed.
Lemma is_el_spec x i : is_el x i = true <-> exists n k, i = El x n k.
Proof. destruct i as [|y n k|]; cbn; [split; [discriminate|intros (?&?&?); discriminate]| |split; [discriminate|intros (?&?&?); discriminate]]. rewrite Nat.eqb_eq. split; [intros ->; eauto|intros (?&?&[= -> _ _]); auto]. Qed.
Lemma not_el x l : ~ In x (nodes l) -> forall i, In i l -> is_el x i = false.
Proof. intros H i Hi. destruct (is_el x i) eqn:E; [|reflexivity]. apply is_el_spec in E as (n & k & ->). exfalso. apply H, nodes_in. eauto. Qed.
Lemma without_id x l : ~ In x (nodes l) -> without x l = l.
Proof. intros H. unfold without. pose proof (not_el x l H) as E. clear H. induction l as [|i l IH]; [reflexivity|]. cbn [filter]. rewrite E by now left. cbn [negb]. f_equal. apply IH. intros j Hj. apply E. now right. Qed.
Lemma without_app x a b : without x (a ++ b) = without x a ++ without x b. Proof. apply filter_app. Qed.
Lemma without_mid x n k a b : ~ In x (nodes a) -> ~ In x (nodes b) -> without x (a ++ El x n k :: b) = a ++ b.
Proof. intros Ha Hb. rewrite without_app, (without_id x a Ha). unfold without at 1. cbn [filter is_el]. rewrite Nat.eqb_refl. cbn [negb]. fold (without x b). now rewrite without_id. Qed.
Lemma replaced_id x v l : ~ In x (nodes l) -> replaced x v l = l.
Proof. intros H. unfold replaced. pose proof (not_el x l H) as E. clear H. induction l as [|i l IH]; [reflexivity|]. cbn [map]. rewrite E by now left. f_equal. apply IH. intros j Hj. apply E. now right. Qed.
Lemma replaced_mid x v n k a b : ~ In x (nodes a) -> ~ In x (nodes b) -> replaced x v (a ++ El x n k :: b) = a ++ v :: b.
Proof. intros Ha Hb. unfold replaced. rewrite map_app. fold (replaced x v a). rewrite (replaced_id x v a Ha). cbn [map is_el]. rewrite Nat.eqb_refl. fold (replaced x v b). now rewrite replaced_id. Qed.
Lemma after_id x v l : ~ In x (nodes l) -> after x v l = l.
Proof. intros H. unfold after. pose proof (not_el x l H) as E. clear H. induction l as [|i l IH]; [reflexivity|]. cbn [flat_map]. rewrite E by now left. cbn. f_equal. apply IH. intros j Hj. apply E. now right. Qed.
Lemma after_mid x v n k a b : ~ In x (nodes a) -> ~ In x (nodes b) -> after x v (a ++ El x n k :: b) = a ++ El x n k :: v :: b.
Proof. intros Ha Hb. unfold after. rewrite flat_map_app. fold (after x v a). rewrite (after_id x v a Ha). cbn [flat_map is_el]. rewrite Nat.eqb_refl. fold (after x v b). now rewrite after_id. Qed.
Lemma listed_none x l : ~ In x (nodes l) -> listed x l = None.
Proof. intros H. unfold listed. destruct (List.find (is_el x) l) as [i|] eqn:E; [|reflexivity]. apply find_some in E as [Hi Ei]. rewrite (not_el x l H i Hi) in Ei. discriminate. Qed.
Lemma listed_mid x n k a b : ~ In x (nodes a) -> listed x (a ++ El x n k :: b) = Some (n, k).
Proof.
  intros H. unfold listed. pose proof (not_el x a H) as E. clear H. induction a as [|i a IH]; cbn [app List.find is_el]; [now rewrite Nat.eqb_refl|].
  rewrite E by now left. apply IH. intros j Hj. apply E. now right.
Qed.
Definition unmarked (l : list item) := forall i, In i l -> is_bookmark i = false.
Lemma no_bookmark_id l : unmarked l -> no_bookmark l = l.
Proof. unfold no_bookmark. induction l as [|i l IH]; intros H; [reflexivity|]. cbn [filter]. rewrite H by now left. cbn [negb]. f_equal. apply IH. intros j Hj. apply H. now right. Qed.
Lemma no_bookmark_app a b : no_bookmark (a ++ b) = no_bookmark a ++ no_bookmark b. Proof. apply filter_app. Qed.
Lemma place_mid v a b : unmarked a -> unmarked b -> map (fun i => if is_bookmark i then v else i) (a ++ Bookmark :: b) = a ++ v :: b.
Proof.
  assert (I : forall l, unmarked l -> map (fun i => if is_bookmark i then v else i) l = l).
  { induction l as [|i l IH]; intros H; [reflexivity|]. cbn [map]. rewrite H by now left. f_equal. apply IH. intros j Hj. apply H. now right. }
  intros Ha Hb. rewrite map_app, I by assumption. cbn [map is_bookmark]. now rewrite I.
Qed.

(* the live part *)
Lemma live_app a b : live (a ++ b) = live a ++ live b. Proof. apply flat_map_app. Qed.
Lemma live_cons e b : e_live e = true -> live (Some e :: b) = el e :: live b. Proof. intros H. unfold live. cbn [flat_map]. rewrite H. reflexivity. Qed.
Lemma live_dead e b : e_live e = false -> live (Some e :: b) = live b. Proof. intros H. unfold live. cbn [flat_map]. rewrite H. reflexivity. Qed.
Lemma live_mid a e b : e_live e = true -> live (a ++ Some e :: b) = live a ++ el e :: live b. Proof. intros H. now rewrite live_app, live_cons. Qed.
Lemma live_unmarked l : unmarked (live l).
Proof. intros i. unfold live. rewrite in_flat_map. intros (s & _ & H). destruct s as [e|]; [destruct (e_live e)|]; cbn in H; try tauto; destruct H as [<-|[]]; reflexivity. Qed.
Lemma unmarked_app a b : unmarked (a ++ b) <-> unmarked a /\ unmarked b.
Proof. unfold unmarked. split; [intros H; split; intros i Hi; apply H, in_app_iff; auto|intros [Ha Hb] i Hi; apply in_app_iff in Hi as []; auto]. Qed.
Lemma unmarked_cons e b : unmarked b -> unmarked (el e :: b). Proof. intros H i [<-|Hi]; [reflexivity|auto]. Qed.

Lemma find_node_hit x a e b : e_live e = true -> e_node e = x -> ~ In x (nodes (live b)) -> find_node x (List.length (a ++ Some e :: b)) (a ++ Some e :: b) = Some (List.length a).
Proof.
  intros L E. induction b as [|s b IH] using rev_ind; intros H.
  - rewrite app_length. cbn [List.length]. replace (List.length a + 1) with (S (List.length a)) by lia. cbn [find_node]. rewrite nth_mid, L, E, Nat.eqb_refl. reflexivity.
  - assert (Q : a ++ Some e :: b ++ [s] = (a ++ Some e :: b) ++ [s]) by (rewrite <- app_assoc; reflexivity). rewrite Q, app_length. cbn [List.length]. rewrite Nat.add_1_r. cbn [find_node]. rewrite nth_mid.
    rewrite live_app, nodes_app, in_app_iff in H.
    assert (Z : find_node x (List.length (a ++ Some e :: b)) ((a ++ Some e :: b) ++ [s]) = find_node x (List.length (a ++ Some e :: b)) (a ++ Some e :: b)).
    { generalize (a ++ Some e :: b) as l. intros l. assert (W : forall n, n <= List.length l -> find_node x n (l ++ [s]) = find_node x n l); [|now apply W].
      induction n as [|n IHn]; intros Hn; [reflexivity|]. cbn [find_node]. rewrite nth_error_app1 by lia. rewrite IHn by lia. reflexivity. }
    assert (Hb : ~ In x (nodes (live b))) by tauto. destruct s as [e'|]; [|rewrite Z; auto].
    destruct (e_live e' && (e_node e' =? x)) eqn:Ee; [|rewrite Z; auto]. exfalso. apply andb_true_iff in Ee as [L' E']. apply Nat.eqb_eq in E'. apply H. right. rewrite live_cons by assumption. cbn. auto.
Qed.
Lemma find_node_miss x l : ~ In x (nodes (live l)) -> find_node x (List.length l) l = None.
Proof.
  intros H. assert (W : forall n, find_node x n l = None); [|apply W]. induction n as [|n IH]; [reflexivity|]. cbn [find_node].
  destruct (nth_error l n) as [[e|]|] eqn:E; auto. destruct (e_live e && (e_node e =? x)) eqn:Ee; [|exact IH]. exfalso. apply H. apply andb_true_iff in Ee as [L' E']. apply Nat.eqb_eq in E'.
  apply nth_error_split in E as (a & b & -> & _). rewrite live_mid, nodes_app, in_app_iff by assumption. right. left. exact E'.
Qed.
Lemma live_at x l : In x (nodes (live l)) -> exists a e b, l = a ++ Some e :: b /\ e_live e = true /\ e_node e = x.
Proof.
  rewrite nodes_in. intros (n & k & H). unfold live in H. apply in_flat_map in H as (s & Hs & H). apply in_split in Hs as (a & b & ->). destruct s as [e|]; [|destruct H as [|[]]; discriminate].
  destruct (e_live e) eqn:L; [|destruct H]. destruct H as [H|[]]. exists a, e, b. repeat split; congruence.
Qed.

(* after the formatting entry: no marker, no live entry of the name *)
Definition clean (subject : str) (l : list item) := forall i, In i l -> match i with El _ n _ => str_eqb n subject = false | _ => False end.
Lemma clean_app u a b : clean u (a ++ b) <-> clean u a /\ clean u b.
Proof. unfold clean. split; [intros H; split; intros i Hi; apply (H i), in_app_iff; auto|intros [Ha Hb] i Hi; apply in_app_iff in Hi as [Hi|Hi]; [exact (Ha i Hi)|exact (Hb i Hi)]]. Qed.
Lemma clean_cons u e b : clean u (el e :: b) <-> str_eqb (e_name e) u = false /\ clean u b.
Proof. unfold clean. split; [intros H; split; [apply (H (el e)); now left|intros i Hi; apply (H i); now right]|intros [Ha Hb] i [<-|Hi]; [exact Ha|exact (Hb i Hi)]]. Qed.
Lemma find_name_hit u a e b : e_live e = true -> str_eqb (e_name e) u = true -> clean u (live b) -> find_name u (List.length (a ++ Some e :: b)) (a ++ Some e :: b) = Some (List.length a).
Proof.
  intros L E. induction b as [|s b IH] using rev_ind; intros H.
  - rewrite app_length. cbn [List.length]. replace (List.length a + 1) with (S (List.length a)) by lia. cbn [find_name]. rewrite nth_mid, L, E. reflexivity.
  - assert (Q : a ++ Some e :: b ++ [s] = (a ++ Some e :: b) ++ [s]) by (rewrite <- app_assoc; reflexivity). rewrite Q, app_length. cbn [List.length]. rewrite Nat.add_1_r. cbn [find_name]. rewrite nth_mid.
    rewrite live_app, clean_app in H. destruct H as [Hb Hs].
    assert (Z : find_name u (List.length (a ++ Some e :: b)) ((a ++ Some e :: b) ++ [s]) = find_name u (List.length (a ++ Some e :: b)) (a ++ Some e :: b)).
    { generalize (a ++ Some e :: b) as l. intros l. assert (W : forall n, n <= List.length l -> find_name u n (l ++ [s]) = find_name u n l); [|now apply W].
      induction n as [|n IHn]; intros Hn; [reflexivity|]. cbn [find_name]. rewrite nth_error_app1 by lia. rewrite IHn by lia. reflexivity. }
    destruct s as [e'|]; [|exfalso; apply (Hs Marker); now left].
    destruct (e_live e') eqn:L'; [|cbn [andb]; rewrite Z; auto]. rewrite live_cons, clean_cons in Hs by assumption. destruct Hs as [Hs _]. rewrite Hs. cbn [andb]. rewrite Z. auto.
Qed.
Lemma last_named_hit u a x n k b : str_eqb n u = true -> clean u b -> last_named u (rev (a ++ El x n k :: b)) = Some (x, n, k).
Proof.
  intros E H. rewrite rev_app_distr. cbn [rev]. rewrite <- app_assoc. assert (H' : clean u (rev b)) by (intros i Hi; apply H; now apply in_rev). clear H. induction (rev b) as [|i c IH]; cbn [app last_named]; [now rewrite E|].
  pose proof (H' i (or_introl eq_refl)) as Hi. destruct i as [|y m j|]; cbn in Hi; try tauto. rewrite Hi. apply IH. intros i' Hi'. apply H'. now right.
Qed.
Lemma last_named_at u l x n k : last_named u (rev (live l)) = Some (x, n, k) ->
  exists a e b, l = a ++ Some e :: b /\ e_live e = true /\ el e = El x n k /\ str_eqb n u = true /\ clean u (live b).
Proof.
  induction l as [|s l IH] using rev_ind; [discriminate|]. rewrite live_app, rev_app_distr. destruct s as [e|]; [|discriminate]. destruct (e_live e) eqn:L.
  - rewrite live_cons by assumption. change (live []) with (@nil item). unfold el. cbn [rev app last_named]. destruct (str_eqb (e_name e) u) eqn:E.
    + intros [= <- <- <-]. exists l, e, []. repeat split; auto. intros i [].
    + intros H. destruct (IH H) as (a & e' & b & -> & L' & E' & U & C). exists a, e', (b ++ [Some e]). rewrite <- app_assoc. repeat split; auto.
      rewrite live_app, clean_app, live_cons by assumption. split; [exact C|]. apply clean_cons. split; [exact E|]. intros i [].
  - rewrite live_dead by assumption. cbn [rev app live flat_map]. intros H. destruct (IH H) as (a & e' & b & -> & L' & E' & U & C). exists a, e', (b ++ [Some e]). rewrite <- app_assoc. repeat split; auto.
    rewrite live_app, live_dead by assumption. cbn. now rewrite app_nil_r.
Qed.
(* retiring *)
Definition dead (e : entry) : entry := Entry (e_node e) (e_name e) (e_token e) false.
Lemma retire_last a e : retire (List.length a) (a ++ [Some e]) = a.
Proof. unfold retire. rewrite app_length. cbn [List.length]. replace (S (List.length a) =? List.length a + 1) with true by (symmetry; apply Nat.eqb_eq; lia). apply removelast_last. Qed.
Lemma retire_mid a e s b : retire (List.length a) (a ++ Some e :: s :: b) = a ++ Some (dead e) :: s :: b.
Proof. unfold retire. rewrite app_length. cbn [List.length]. replace (S (List.length a) =? List.length a + S (S (List.length b))) with false by (symmetry; apply Nat.eqb_neq; lia). rewrite nth_mid. apply put_mid. Qed.
Lemma retire_live a e b : live (retire (List.length a) (a ++ Some e :: b)) = live a ++ live b.
Proof. destruct b as [|s b]; [rewrite retire_last; cbn; now rewrite app_nil_r|]. rewrite retire_mid, live_app, live_dead by reflexivity. reflexivity. Qed.

(* the elements in both lists are in the same order *)
Definition ordered (u q : list nat) := filter (fun x => mem x q) u = filter (fun x => mem x u) q.
Lemma mem_false x l : mem x l = false <-> ~ In x l.
Proof. rewrite <- mem_In. destruct (mem x l); intuition congruence. Qed.
Lemma filter_ext_on {A} (p q : A -> bool) l : (forall x, In x l -> p x = q x) -> filter p l = filter q l.
Proof. induction l as [|x l IH]; intros H; [reflexivity|]. cbn. rewrite H by now left. rewrite IH by (intros; apply H; now right). reflexivity. Qed.
Lemma filter_and {A} (p q : A -> bool) l : filter p (filter q l) = filter (fun x => p x && q x) l.
Proof. induction l as [|x l IH]; [reflexivity|]. cbn. destruct (q x) eqn:Q; cbn; rewrite IH; destruct (p x); cbn; reflexivity. Qed.
Lemma ordered_part u u' q : ordered u q -> filter (fun x => mem x u') u = u' -> ordered u' q.
Proof.
  unfold ordered. intros O E.
  assert (I : forall x, mem x u' = true -> mem x u = true).
  { intros x. rewrite !mem_In. rewrite <- E at 1. intros H. now apply filter_In in H. }
  rewrite <- E at 1. rewrite filter_and, (filter_ext_on (fun x => mem x q && mem x u') (fun x => mem x u' && mem x q)) by (intros; apply andb_comm). rewrite <- filter_and, O, filter_and.
  apply filter_ext_on. intros x _. destruct (mem x u') eqn:M; [|reflexivity]. now rewrite (I x M).
Qed.
Lemma ordered_filter u q p : ordered u q -> ordered u (filter p q).
Proof.
  unfold ordered. intros O. rewrite filter_and, (filter_ext_on (fun x => mem x u && p x) (fun x => p x && mem x u)) by (intros; apply andb_comm). rewrite <- filter_and, <- O, filter_and.
  apply filter_ext_on. intros x _. destruct (mem x q) eqn:Mq.
  - rewrite andb_true_r. destruct (p x) eqn:P; [rewrite mem_In, filter_In, <- mem_In; auto|]. apply mem_false. rewrite filter_In. intuition congruence.
  - rewrite andb_false_r. apply mem_false. apply mem_false in Mq. rewrite filter_In. tauto.
Qed.
Lemma filter_self u' : filter (fun x => mem x u') u' = u'.
Proof. assert (W : forall l, incl l u' -> filter (fun x => mem x u') l = l); [|now apply W, incl_refl]. induction l as [|x l IH]; intros H; [reflexivity|]. cbn. rewrite (proj2 (mem_In x u')) by (apply H; now left). f_equal. apply IH. intros y Hy. apply H. now right. Qed.
Lemma filter_none {A} (p : A -> bool) l : (forall x, In x l -> p x = false) -> filter p l = [].
Proof. induction l as [|x l IH]; intros H; [reflexivity|]. cbn. rewrite H by now left. apply IH. intros; apply H; now right. Qed.
Lemma filter_all {A} (p : A -> bool) l : (forall x, In x l -> p x = true) -> filter p l = l.
Proof. induction l as [|x l IH]; intros H; [reflexivity|]. cbn. rewrite H by now left. f_equal. apply IH. intros; apply H; now right. Qed.
Lemma mid_unique {A} (x : A) a b a' b' : a ++ x :: b = a' ++ x :: b' -> ~ In x a -> ~ In x a' -> a = a' /\ b = b'.
Proof.
  revert a'. induction a as [|y a IH]; intros a' E H H'; destruct a' as [|y' a']; cbn in *.
  - injection E as ->. auto.
  - injection E as <- _. tauto.
  - injection E as -> _. tauto.
  - injection E as <- E. destruct (IH a' E) as [-> ->]; tauto.
Qed.
Lemma nodup_parts (a : list nat) x b : NoDup (a ++ x :: b) -> NoDup a /\ NoDup b /\ ~ In x a /\ ~ In x b /\ forall y, In y a -> ~ In y b.
Proof.
  intros H. pose proof (NoDup_remove_2 _ _ _ H) as Hx. apply NoDup_remove_1 in H. rewrite in_app_iff in Hx. apply nodup_app in H as (Ha & Hb & D). repeat split; auto.
Qed.
Lemma ordered_split u1 x u2 q1 q2 : NoDup (u1 ++ x :: u2) -> NoDup (q1 ++ x :: q2) -> ordered (u1 ++ x :: u2) (q1 ++ x :: q2) ->
  (forall y, In y u1 -> In y (q1 ++ x :: q2) -> In y q1) /\ (forall y, In y u2 -> In y (q1 ++ x :: q2) -> In y q2) /\ ordered u2 q2.
Proof.
  intros Nu Nq O. unfold ordered in O. rewrite !filter_app in O. cbn [filter] in O.
  rewrite (proj2 (mem_In x _)) in O by (apply in_app_iff; right; now left). rewrite (proj2 (mem_In x (u1 ++ x :: u2))) in O by (apply in_app_iff; right; now left).
  apply nodup_parts in Nu as (_ & _ & X1 & X2 & Du). apply nodup_parts in Nq as (_ & _ & Y1 & Y2 & Dq).
  apply mid_unique in O as [A B]; [|intros H; apply filter_In in H; tauto|intros H; apply filter_In in H; tauto].
  assert (K1 : forall y, In y u1 -> In y (q1 ++ x :: q2) -> In y q1).
  { intros y Hu Hq. assert (W : In y (filter (fun x0 => mem x0 (q1 ++ x :: q2)) u1)) by (apply filter_In; rewrite mem_In; auto). rewrite A in W. now apply filter_In in W. }
  assert (K2 : forall y, In y u2 -> In y (q1 ++ x :: q2) -> In y q2).
  { intros y Hu Hq. assert (W : In y (filter (fun x0 => mem x0 (q1 ++ x :: q2)) u2)) by (apply filter_In; rewrite mem_In; auto). rewrite B in W. now apply filter_In in W. }
  split; [exact K1|]. split; [exact K2|]. unfold ordered.
  rewrite (filter_ext_on (fun x0 => mem x0 q2) (fun x0 => mem x0 (q1 ++ x :: q2))); [rewrite B|].
  - apply filter_ext_on. intros y Hy. destruct (mem y (u1 ++ x :: u2)) eqn:M.
    + symmetry. apply mem_In. assert (W : In y (filter (fun x0 => mem x0 (u1 ++ x :: u2)) q2)) by (apply filter_In; auto). rewrite <- B in W. now apply filter_In in W.
    + symmetry. apply mem_false. apply mem_false in M. intros H. apply M, in_app_iff. right. now right.
  - intros y Hy. destruct (mem y (q1 ++ x :: q2)) eqn:M; [apply mem_In in M; apply mem_In; auto|]. apply mem_false in M. apply mem_false. intros H. apply M, in_app_iff. right. now right.
Qed.
