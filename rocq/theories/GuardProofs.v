(* PROOFS for C65, part 1: what the adoption agency algorithm makes *)
From Coq Require Import List Arith Bool String Lia.
From Verif Require Import Str StrFacts.
From Verif Require Import FinishModel AaaModel ReconModel GuardModel GuardSpec.
Import ListNotations.
Open Scope string_scope. Open Scope list_scope. Open Scope nat_scope.

Section made.
Variable P : str -> nat -> Prop.
Definition listed (l : list slot) : Prop := forall e, In (Some e) l -> P (e_name e) (e_token e).
(* from s to s': new elements are clones of entries that satisfy P *)
Record ext (s s' : st) : Prop := Ext {
  x_next : next s <= next s';
  x_tags : forall x, x < next s -> tags s' x = tags s x;
  x_rest : forall x, next s' <= x -> tags s' x = tags s x;
  x_new : exists o, ops s' = ops s ++ o
    /\ (forall x, next s <= x < next s' -> exists n t, In (New x n t) o)
    /\ (forall x n t, In (New x n t) o -> P n t /\ next s <= x < next s' /\ tags s' x = (n, Html)) }.

Lemma ext_refl : forall s, ext s s.
Proof. intros s. constructor; [lia|reflexivity|reflexivity|]. exists []. rewrite app_nil_r. split; [reflexivity|]. split; [intros; lia|intros x n t []]. Qed.
Lemma ext_trans : forall a b c, ext a b -> ext b c -> ext a c.
Proof.
  intros a b c [N1 T1 R1 (o1 & E1 & A1 & B1)] [N2 T2 R2 (o2 & E2 & A2 & B2)]. constructor; [lia|intros x H; rewrite T2, T1 by lia; reflexivity|intros x H; rewrite R2, R1 by lia; reflexivity|].
  exists (o1 ++ o2). rewrite E2, E1, app_assoc. split; [reflexivity|]. split.
  - intros x H. destruct (Nat.lt_ge_cases x (next b)) as [L|L].
    + destruct (A1 x ltac:(lia)) as (n & t & I). exists n, t. apply in_or_app. now left.
    + destruct (A2 x ltac:(lia)) as (n & t & I). exists n, t. apply in_or_app. now right.
  - intros x n t I. apply in_app_or in I as [I|I].
    + destruct (B1 x n t I) as (Q & R & W). split; [exact Q|]. split; [lia|]. rewrite T2 by lia. exact W.
    + destruct (B2 x n t I) as (Q & R & W). split; [exact Q|]. split; [lia|exact W].
Qed.
(* a state that differs in stack and list only *)
Lemma ext_same : forall s l a, ext s (St l a (tags s) (next s) (ops s)).
Proof. intros s l a. constructor; cbn; [lia|reflexivity|reflexivity|]. exists []. rewrite app_nil_r. split; [reflexivity|]. split; [intros; lia|intros x n t []]. Qed.
(* one clone *)
Lemma ext_new : forall s l a n t more, P n t -> (forall x n' t', ~ In (New x n' t') more) -> forall before, (forall x n' t', ~ In (New x n' t') before) ->
  ext s (St l a (upd (tags s) (next s) (n, Html)) (S (next s)) (ops s ++ before ++ New (next s) n t :: more)).
Proof.
  intros s l a n t more Q M before Bf. constructor; cbn [next tags ops]; [lia| | |].
  - intros x H. unfold upd. destruct (Nat.eqb_spec x (next s)); [lia|reflexivity].
  - intros x H. unfold upd. destruct (Nat.eqb_spec x (next s)); [lia|reflexivity].
  - eexists. split; [reflexivity|]. split.
    + intros x H. assert (x = next s) as -> by lia. exists n, t. apply in_or_app. right. now left.
    + intros x n' t' I. apply in_app_or in I as [I|[I|I]]; [destruct (Bf _ _ _ I)| |destruct (M _ _ _ I)]. injection I as <- <- <-. split; [exact Q|]. split; [lia|]. unfold upd. now rewrite Nat.eqb_refl.
Qed.

Lemma in_put : forall A (v w : A) i l, In w (put i v l) -> w = v \/ In w l.
Proof. intros A v w i l. revert i. induction l as [|x l IH]; intros [|i] H; cbn in *; auto. - destruct H as [->|H]; auto. - destruct H as [->|H]; auto. destruct (IH i H); auto. Qed.
Lemma in_insert : forall A (v w : A) i l, In w (insert i v l) -> w = v \/ In w l.
Proof.
  intros A v w i l H. unfold insert in H. apply in_app_or in H as [H|[H|H]]; auto.
  - right. rewrite <- (firstn_skipn i l). apply in_or_app. now left.
  - right. rewrite <- (firstn_skipn i l). apply in_or_app. now right.
Qed.
Lemma in_removelast_slot : forall A (w : A) l, In w (removelast l) -> In w l.
Proof. intros A w l. induction l as [|x l IH]; [intros []|]. destruct l as [|y l]; [intros []|]. cbn [removelast]. intros [<-|H]; [now left|]. right. now apply IH. Qed.
Lemma listed_retire : forall i l, listed l -> listed (retire i l).
Proof.
  intros i l H e I. unfold retire in I. destruct (S i =? List.length l); [apply H, in_removelast_slot, I|].
  destruct (nth_error l i) as [[e0|]|] eqn:E; try (apply H, I). apply in_put in I as [I|I]; [|apply H, I]. injection I as ->. cbn. apply H. now apply nth_error_In in E.
Qed.
Lemma listed_put : forall i e l, P (e_name e) (e_token e) -> listed l -> listed (put i (Some e) l).
Proof. intros i e l Q H e' I. apply in_put in I as [I|I]; [|apply H, I]. injection I as ->. exact Q. Qed.
Lemma listed_insert : forall i e l, P (e_name e) (e_token e) -> listed l -> listed (insert i (Some e) l).
Proof. intros i e l Q H e' I. apply in_insert in I as [I|I]; [|apply H, I]. injection I as ->. exact Q. Qed.

Lemma inner_ext : forall fe fb i counter bookmark last_node s b ln s', listed (active s) ->
  inner fe fb i counter bookmark last_node s = Some (b, ln, s') -> ext s s' /\ listed (active s').
Proof.
  intros fe fb. induction i as [|i IH]; intros counter bookmark last_node s b ln s' L H; [discriminate|]. cbn [inner] in H.
  destruct (nth_error (stack s) i) as [node|] eqn:En; [|discriminate]. destruct (node =? fe); [injection H as _ _ <-; split; [apply ext_refl|exact L]|].
  destruct (find_node node (List.length (active s)) (active s)) as [j|] eqn:Ef.
  - destruct (3 <? S counter).
    + apply IH in H as [H1 H2]; [|apply listed_retire, L]. split; [|exact H2]. eapply ext_trans; [apply ext_same|exact H1].
    + destruct (nth_error (active s) j) as [[e|]|] eqn:Ej; try discriminate. assert (Q : P (e_name e) (e_token e)) by (apply L; now apply nth_error_In in Ej).
      apply IH in H as [H1 H2]; [|apply listed_put; [exact Q|exact L]]. split; [|exact H2]. eapply ext_trans; [|exact H1].
      apply (ext_new s _ _ _ _ [Move last_node (next s)] Q) with (before := []); [intros x n' t' [K|[]]; discriminate|intros x n' t' []].
  - apply IH in H as [H1 H2]; [|exact L]. split; [|exact H2]. eapply ext_trans; [apply ext_same|exact H1].
Qed.
Lemma rounds_ext : forall n subject s s', listed (active s) -> rounds code_special code_boundary n subject s = Some s' -> ext s s' /\ listed (active s').
Proof.
  induction n as [|n IH]; intros subject s s' L H; [injection H as <-; split; [apply ext_refl|exact L]|]. cbn [rounds] in H.
  destruct (find_name subject (List.length (active s)) (active s)) as [f|].
  2: { destruct (last_opt (stack s)) as [x|]; [|injection H as <-; split; [apply ext_refl|exact L]].
       destruct (str_eqb (fst (tags s x)) subject); injection H as <-; split; try exact L; [apply ext_same|apply ext_refl]. }
  destruct (nth_error (active s) f) as [[e|]|] eqn:Ef; try discriminate. cbv zeta in H. assert (Q : P (e_name e) (e_token e)) by (apply L; now apply nth_error_In in Ef).
  destruct (match last_opt (stack s) with Some x => x =? e_node e | None => false end).
  { injection H as <-. split; [apply ext_same|apply listed_retire, L]. }
  destruct (index_of (e_node e) (stack s)) as [fi|]; [|injection H as <-; split; [apply ext_same|apply listed_retire, L]].
  destruct (negb (in_scope code_boundary fi s)); [injection H as <-; split; [apply ext_refl|exact L]|].
  destruct (furthest code_special s (skipn (S fi) (stack s)) (S fi)) as [[fb bi]|]; [|injection H as <-; split; [apply ext_same|apply listed_retire, L]].
  destruct (inner (e_node e) fb bi 0 (S f) fb s) as [[[bookmark last_node] s1]|] eqn:Ei; [|discriminate]. apply inner_ext in Ei as [X1 L1]; [|exact L].
  destruct (nth_error (stack s1) (fi - 1)) as [ancestor|]; [|discriminate]. destruct (index_of (e_node e) (stack s1)) as [k|]; [|discriminate].
  destruct (index_of fb (delete k (stack s1))) as [k'|]; [|discriminate].
  apply IH in H as [X2 L2]; [|cbn [active]; apply listed_insert; [exact Q|apply listed_retire, L1]]. split; [|exact L2]. eapply ext_trans; [exact X1|]. eapply ext_trans; [|exact X2].
  apply (ext_new s1 _ _ _ _ [MoveAll fb (next s1); AaaModel.Append fb (next s1)] Q) with (before := [Place last_node ancestor]).
  - intros x n' t' [K|[K|[]]]; discriminate.
  - intros x n' t' [K|[]]; discriminate.
Qed.
Lemma adoption_ext : forall subject s s', listed (active s) -> adoption_agency code_special code_boundary subject s = Some s' -> ext s s' /\ listed (active s').
Proof.
  intros subject s s' L H. unfold adoption_agency in H. destruct (match last_opt (active s) with Some (Some e) => _ | _ => _ end).
  - injection H as <-. split; [apply ext_same|apply listed_retire, L].
  - exact (rounds_ext 8 subject s s' L H).
Qed.
End made.
