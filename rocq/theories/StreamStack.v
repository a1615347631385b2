(* the open elements of the stream scanner: positions kept in dictionaries against the list itself *)
From Coq Require Import Lia ZifyBool ZifyN ZifyNat.
From Verif Require Import Str StrFacts StreamModel.
Open Scope list_scope. Open Scope N_scope.

(* SPECIFICATION: positions, counted from the bottom, of the elements with a property; the last one first *)
Fixpoint places (p : node -> bool) (l : list node) : list nat :=
  match l with [] => [] | x :: r => if p x then List.length r :: places p r else places p r end.
Definition named (k : str) (x : node) : bool := str_eqb k (lower (n_name x)).
Definition consistent (o : opened) : Prop :=
  (forall k, assoc k (name_positions o) = match places (named k) (elements o) with [] => None | b => Some b end) /\
  NoDup (map fst (name_positions o)) /\
  html_positions o = places (fun x => negb (foreign (n_ns x))) (elements o).
(* what an end tag leaves open: br and p leave foreign content; otherwise the last element of that name is closed, with all after it, if no HTML
   element is open after it, and if there is none the last element is closed *)
Fixpoint down_to (k : str) (l : list node) : option (list node) :=
  match l with [] => None | x :: r => if named k x then Some r else if foreign (n_ns x) then down_to k r else None end.
Fixpoint leave_foreign (l : list node) : list node := match l with x :: r => if foreign (n_ns x) then leave_foreign r else l | [] => [] end.
Definition close (name : str) (l : list node) : list node :=
  match l with
  | [] => []
  | x :: r => if foreign (n_ns x) && in_strs (lower name) [u "br"; u "p"] then leave_foreign l
              else match down_to (lower name) l with Some r' => r' | None => r end
  end.

Lemma assoc_set k k' b (d : list (str * list nat)) : assoc k (set_bucket k' b d) = if str_eqb k k' then Some b else assoc k d.
Proof.
  induction d as [|[a c] d IH]; cbn [set_bucket assoc]; [reflexivity|]. destruct (str_eqb k' a) eqn:E.
  - apply str_eqb_eq in E. subst a. cbn [assoc]. destruct (str_eqb k k'); reflexivity.
  - cbn [assoc]. destruct (str_eqb k a) eqn:E2; [|exact IH]. apply str_eqb_eq in E2. subst a. destruct (str_eqb k k') eqn:E3; [|reflexivity]. apply str_eqb_eq in E3. subst k'. rewrite str_eqb_refl in E. discriminate E.
Qed.
Lemma keys_set k b (d : list (str * list nat)) : NoDup (map fst d) -> NoDup (map fst (set_bucket k b d)).
Proof.
  intros H. assert (G : forall x, In x (map fst (set_bucket k b d)) -> x = k \/ In x (map fst d)).
  { clear. induction d as [|[a c] d IH]; cbn [set_bucket map fst]; [intros x [<-|[]]; left; reflexivity|]. intros x. destruct (str_eqb k a); cbn [map fst]; [intros [<-|I]; [left; reflexivity|right; right; exact I]|]. intros [<-|I]; [right; left; reflexivity|]. destruct (IH x I) as [J|J]; [left; exact J|right; right; exact J]. }
  induction d as [|[a c] d IH]; cbn [set_bucket map fst] in *; [constructor; [intros []|constructor]|]. inversion H as [|? ? Na Nd]; subst. destruct (str_eqb k a) eqn:E; cbn [map fst].
  - apply str_eqb_eq in E. subst a. constructor; assumption.
  - constructor; [|apply IH; [exact Nd|]].
    + intros I. assert (a = k \/ In a (map fst d)) as [->|J].
      { clear -I. induction d as [|[x y] d IH]; cbn [set_bucket map fst] in *; [destruct I as [<-|[]]; left; reflexivity|]. destruct (str_eqb k x); cbn [map fst] in I; destruct I as [<-|I]; [left; reflexivity|right; right; exact I|right; left; reflexivity|]. destruct (IH I) as [J|J]; [left; exact J|right; right; exact J]. }
      * rewrite str_eqb_refl in E. discriminate E.
      * contradiction.
    + intros x I. clear -I. induction d as [|[y z] d IH]; cbn [set_bucket map fst] in *; [destruct I as [<-|[]]; left; reflexivity|]. destruct (str_eqb k y); cbn [map fst] in I; destruct I as [<-|I]; [left; reflexivity|right; right; exact I|right; left; reflexivity|]. destruct (IH I) as [J|J]; [left; exact J|right; right; exact J].
Qed.
Lemma del_sub k x (d : list (str * list nat)) : In x (map fst (del_bucket k d)) -> In x (map fst d).
Proof. induction d as [|[a c] d IH]; [intros []|]. cbn [del_bucket map fst]. destruct (str_eqb k a); [intros I; right; exact I|]. cbn [map fst]. intros [<-|I]; [left; reflexivity|right; exact (IH I)]. Qed.
Lemma keys_del k (d : list (str * list nat)) : NoDup (map fst d) -> NoDup (map fst (del_bucket k d)).
Proof.
  induction d as [|[a c] d IH]; intros H; cbn [del_bucket map fst] in *; [constructor|]. inversion H; subst. destruct (str_eqb k a); [assumption|]. cbn [map fst]. constructor; [|apply IH; assumption]. intros I. apply del_sub in I. contradiction.
Qed.
Lemma assoc_absent k (d : list (str * list nat)) : ~ In k (map fst d) -> assoc k d = None.
Proof. induction d as [|[a c] d IH]; intros H; [reflexivity|]. cbn [assoc map fst] in *. destruct (str_eqb k a) eqn:E; [apply str_eqb_eq in E; subst a; destruct H; left; reflexivity|]. apply IH. intros I. apply H. right. exact I. Qed.
Lemma assoc_del k k' (d : list (str * list nat)) : NoDup (map fst d) -> assoc k (del_bucket k' d) = if str_eqb k k' then None else assoc k d.
Proof.
  induction d as [|[a c] d IH]; intros H; cbn [del_bucket assoc map fst] in *; [destruct (str_eqb k k'); reflexivity|]. inversion H; subst. destruct (str_eqb k' a) eqn:E.
  - apply str_eqb_eq in E. subst a. destruct (str_eqb k k') eqn:E2; [|reflexivity]. apply str_eqb_eq in E2. subst k'. apply assoc_absent. assumption.
  - cbn [assoc]. destruct (str_eqb k a) eqn:E2; [|apply IH; assumption]. apply str_eqb_eq in E2. subst a. destruct (str_eqb k k') eqn:E3; [|reflexivity]. apply str_eqb_eq in E3. subst k'. rewrite str_eqb_refl in E. discriminate E.
Qed.

Lemma empty_consistent : consistent no_elements.
Proof. split; [reflexivity|]. split; [constructor|reflexivity]. Qed.
Lemma push_consistent x o : consistent o -> consistent (push x o) /\ elements (push x o) = x :: elements o.
Proof.
  intros (A & B & C). split; [|reflexivity]. unfold push, consistent. cbn [elements name_positions html_positions]. split; [|split].
  - intros k. rewrite assoc_set. cbn [places]. unfold named at 1. destruct (str_eqb k (lower (n_name x))) eqn:E; [|apply A]. apply str_eqb_eq in E. subst k. rewrite A. destruct (places (named (lower (n_name x))) (elements o)); reflexivity.
  - apply keys_set. exact B.
  - cbn [places]. rewrite C. destruct (foreign (n_ns x)); reflexivity.
Qed.
Lemma pop_consistent o x r : consistent o -> elements o = x :: r -> exists o', pop_open_element o = Some o' /\ elements o' = r /\ consistent o'.
Proof.
  intros (A & B & C) E. unfold pop_open_element. rewrite E. pose proof (A (lower (n_name x))) as Ax. rewrite E in Ax. cbn [places] in Ax. unfold named in Ax at 1. rewrite str_eqb_refl in Ax. rewrite Ax.
  set (b := places (named (lower (n_name x))) r) in *. set (names := match b with [] => _ | _ => _ end).
  assert (An : forall k, assoc k names = match places (named k) r with [] => None | b => Some b end).
  { intros k. pose proof (A k) as Ak. rewrite E in Ak. cbn [places] in Ak. unfold named in Ak at 1. unfold names. destruct b as [|i b0] eqn:Eb.
    - rewrite assoc_del by exact B. destruct (str_eqb k (lower (n_name x))) eqn:Ek; [apply str_eqb_eq in Ek; subst k; fold b; rewrite Eb; reflexivity|exact Ak].
    - rewrite assoc_set. destruct (str_eqb k (lower (n_name x))) eqn:Ek; [apply str_eqb_eq in Ek; subst k; fold b; rewrite Eb; reflexivity|exact Ak]. }
  assert (Bn : NoDup (map fst names)) by (unfold names; destruct b; [apply keys_del|apply keys_set]; exact B).
  rewrite E in C. cbn [places] in C. destruct (foreign (n_ns x)); cbn [negb] in C.
  - eexists. split; [reflexivity|]. split; [reflexivity|]. split; [exact An|]. split; [exact Bn|exact C].
  - rewrite C. eexists. split; [reflexivity|]. split; [reflexivity|]. split; [exact An|]. split; [exact Bn|reflexivity].
Qed.
Lemma pop_times_ok k : forall o, consistent o -> (k <= List.length (elements o))%nat -> exists o', pop_times k o = Some o' /\ elements o' = skipn k (elements o) /\ consistent o'.
Proof.
  induction k as [|k IH]; intros o H L; [exists o; repeat split; try reflexivity; apply H|]. destruct (elements o) as [|x r] eqn:E; [cbn in L; lia|]. cbn [pop_times skipn]. destruct (pop_consistent o x r H E) as (o1 & P & E1 & H1). rewrite P. cbn [List.length] in L. destruct (IH o1 H1 ltac:(rewrite E1; lia)) as (o2 & Q & E2 & H2). exists o2. rewrite E1 in E2. repeat split; assumption || apply H2.
Qed.
Lemma leave_ok l : forall o, consistent o -> elements o = l -> exists o', pop_foreign_go l o = Some o' /\ elements o' = leave_foreign l /\ consistent o'.
Proof.
  induction l as [|x r IH]; intros o H E; cbn [pop_foreign_go leave_foreign]; [exists o; repeat split; assumption || apply H|]. destruct (foreign (n_ns x)); [|exists o; repeat split; assumption || apply H]. destruct (pop_consistent o x r H E) as (o1 & P & E1 & H1). rewrite P. exact (IH o1 H1 E1).
Qed.
Lemma places_lt p l : forall i, In i (places p l) -> (i < List.length l)%nat.
Proof. induction l as [|x r IH]; intros i; [intros []|]. cbn [places List.length]. destruct (p x); [intros [<-|I]; [lia|]|intros I]; specialize (IH i I); lia. Qed.
(* the position looked up and the search *)
Lemma down_to_places k l : match down_to k l with
  | Some r => exists b, places (named k) l = List.length r :: b /\ skipn (List.length l - List.length r) l = r /\ match places (fun x => negb (foreign (n_ns x))) l with [] => True | h :: _ => (h <= List.length r)%nat end
  | None => match places (named k) l with [] => True | t :: _ => match places (fun x => negb (foreign (n_ns x))) l with [] => False | h :: _ => (t < h)%nat end end
  end.
Proof.
  induction l as [|x r IH]; cbn [down_to places]; [exact Logic.I|]. destruct (named k x) eqn:E.
  - exists (places (named k) r). split; [reflexivity|]. split.
    + cbn [List.length]. replace (S (List.length r) - List.length r)%nat with 1%nat by lia. reflexivity.
    + destruct (foreign (n_ns x)); cbn [negb]; [|lia]. destruct (places (fun x0 => negb (foreign (n_ns x0))) r) as [|h t] eqn:Ep; [exact Logic.I|]. pose proof (places_lt _ r h ltac:(rewrite Ep; left; reflexivity)). lia.
  - destruct (foreign (n_ns x)) eqn:F; cbn [negb].
    + destruct (down_to k r) as [r'|]; [|exact IH]. destruct IH as (b & P & K & Q). exists b. split; [exact P|]. split; [|exact Q]. pose proof (places_lt _ r (List.length r') ltac:(rewrite P; left; reflexivity)) as Lt. cbn [List.length]. replace (S (List.length r) - List.length r')%nat with (S (List.length r - List.length r'))%nat by lia. cbn [skipn]. exact K.
    + destruct (places (named k) r) as [|t b] eqn:Ep; [exact Logic.I|]. apply (places_lt (named k) r). rewrite Ep. left. reflexivity.
Qed.
Lemma close_ok name o : consistent o -> exists o', pop_for_end_tag name o = Some o' /\ elements o' = close name (elements o) /\ consistent o'.
Proof.
  intros H. unfold pop_for_end_tag, close. destruct (elements o) as [|x r] eqn:E; [exists o; repeat split; assumption || apply H|]. destruct (foreign (n_ns x) && in_strs (lower name) [u "br"; u "p"]) eqn:F.
  - unfold pop_foreign_context. rewrite E. apply leave_ok; assumption.
  - pose proof (down_to_places (lower name) (elements o)) as D. pose proof H as Cn. destruct H as (A & B & C). rewrite A, C. rewrite E in D |- *. destruct (down_to (lower name) (x :: r)) as [r'|].
    + destruct D as (b & P & K & Q). rewrite P. assert (G : exists o', truncate (List.length r') o = Some o' /\ elements o' = r' /\ consistent o').
      { unfold truncate. destruct (pop_times_ok (List.length (elements o) - List.length r') o Cn ltac:(lia)) as (o' & P1 & P2 & P3). exists o'. split; [exact P1|]. split; [|exact P3]. rewrite P2, E. exact K. }
      destruct (places (fun x0 => negb (foreign (n_ns x0))) (x :: r)) as [|h t]; [exact G|]. destruct (Nat.leb_spec h (List.length r')); [exact G|lia].
    + assert (G : exists o', pop_open_element o = Some o' /\ elements o' = r /\ consistent o') by (apply (pop_consistent o x r); [exact Cn|exact E]).
      destruct (places (named (lower name)) (x :: r)) as [|t b]; [exact G|]. destruct (places (fun x0 => negb (foreign (n_ns x0))) (x :: r)) as [|h h']; [destruct D|]. destruct (Nat.leb_spec h t); [lia|exact G].
Qed.
Lemma namespace_ok name attrs o : consistent o -> exists n o', namespace_for name attrs o = Some (n, o') /\ consistent o' /\ (elements o' = elements o \/ elements o' = leave_foreign (elements o)).
Proof.
  intros H. unfold namespace_for. destruct (elements o) as [|x r] eqn:E; [do 2 eexists; split; [reflexivity|split; [exact H|left; exact E]]|].
  destruct (html_integration x); [do 2 eexists; split; [reflexivity|split; [exact H|left; exact E]]|]. destruct (_ && negb _); [do 2 eexists; split; [reflexivity|split; [exact H|left; exact E]]|]. destruct (_ && _ && _); [do 2 eexists; split; [reflexivity|split; [exact H|left; exact E]]|]. destruct (foreign (n_ns x)); [|do 2 eexists; split; [reflexivity|split; [exact H|left; exact E]]].
  destruct (_ || _); [|do 2 eexists; split; [reflexivity|split; [exact H|left; exact E]]]. destruct (leave_ok (elements o) o H eq_refl) as (o' & P & E' & H'). unfold pop_foreign_context. rewrite P. cbn [option_map]. exists (from_html_context name), o'. split; [reflexivity|]. split; [exact H'|right]. rewrite E', E. reflexivity.
Qed.
