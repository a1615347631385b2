From Coq Require Import List Arith Bool Lia.
From Verif Require Import Str FinishModel FinishSpec FinishProofs SelectModel.
Import ListNotations.
Open Scope list_scope. Open Scope nat_scope.

Notation size_of t := (List.length (ids t)).
Notation sizes l := (List.length (flat_map ids l)).

(* ---- copies ---- *)
Definition clones := fix go (l : list tree) (s : st) := match l with [] => ([], s) | x :: r => let '(x, s) := clone x s in let '(r, s) := go r s in (x :: r, s) end.
Lemma clone_T n l s : clone (T n l) s = let s1 := St (upd (info s) (next s) (info s n)) (S (next s)) (drops s) (unwraps s) (remaining s) in let '(l', s') := clones l s1 in (T (next s) l', s').
Proof. reflexivity. Qed.
Inductive alike : tree -> tree -> Prop := Alike n l m k : Forall2 alike l k -> alike (T n l) (T m k).
Lemma clone_spec t : forall s c s', clone t s = (c, s') -> (forall x, In x (ids t) -> x < next s) ->
  alike t c /\ ids c = seq (next s) (size_of t) /\ next s' = next s + size_of t /\ drops s' = drops s /\ unwraps s' = unwraps s /\ remaining s' = remaining s /\
  (forall x, x < next s -> info s' x = info s x) /\ map (info s') (ids c) = map (info s) (ids t).
Proof.
  induction t as [n l IH] using tree_ind'. intros s c s' E B. rewrite clone_T in E. cbn zeta in E. destruct (clones l _) as [l' s2] eqn:El. injection E as <- <-.
  assert (W : forall s l' s', clones l s = (l', s') -> (forall x, In x (flat_map ids l) -> x < next s) ->
    Forall2 alike l l' /\ flat_map ids l' = seq (next s) (sizes l) /\ next s' = next s + sizes l /\ drops s' = drops s /\ unwraps s' = unwraps s /\ remaining s' = remaining s /\
    (forall x, x < next s -> info s' x = info s x) /\ map (info s') (flat_map ids l') = map (info s) (flat_map ids l)).
  { clear -IH. induction IH as [|t l Ht _ IHl]; intros s l' s' E B; cbn [clones] in E.
    - injection E as <- <-. cbn. repeat split; auto.
    - destruct (clone t s) as [c s1] eqn:E1. destruct (clones l s1) as [k s2] eqn:E2. injection E as <- <-. cbn [flat_map] in B.
      destruct (Ht s c s1 E1) as (A1 & I1 & N1 & D1 & U1 & R1 & F1 & M1); [intros; apply B; apply in_app_iff; now left|].
      destruct (IHl s1 k s2 E2) as (A2 & I2 & N2 & D2 & U2 & R2 & F2 & M2); [intros x Hx; rewrite N1; specialize (B x ltac:(apply in_app_iff; now right)); lia|].
      cbn [flat_map]. rewrite !app_length, !map_app. split; [now constructor|]. split; [rewrite I1, I2, seq_app, N1; reflexivity|]. split; [lia|]. split; [congruence|]. split; [congruence|]. split; [congruence|]. split.
      + intros x Hx. rewrite F2 by lia. now apply F1.
      + f_equal.
        * rewrite <- M1. apply map_ext_in. intros x Hx. rewrite I1 in Hx. apply in_seq in Hx. apply F2. lia.
        * rewrite M2. apply map_ext_in. intros x Hx. apply F1. apply B. apply in_app_iff. now right. }
  destruct (W _ _ _ El) as (A & I & N & D & U & R & F & M); [cbn [next]; intros x Hx; specialize (B x (or_intror Hx)); lia|]. cbn [next drops unwraps remaining info] in *.
  cbn [ids List.length]. split; [now constructor|]. split; [rewrite I; reflexivity|]. split; [lia|]. split; [exact D|]. split; [exact U|]. split; [exact R|]. split.
  - intros x Hx. rewrite F by lia. unfold upd. destruct (Nat.eqb_spec x (next s)); [lia|reflexivity].
  - cbn [map]. rewrite M. f_equal.
    + rewrite F by lia. apply upd_same.
    + apply map_ext_in. intros x Hx. unfold upd. destruct (Nat.eqb_spec x (next s)) as [->|]; [|reflexivity]. specialize (B _ (or_intror Hx)). lia.
Qed.
Lemma alike_size t c : alike t c -> size_of t = size_of c.
Proof.
  revert c. induction t as [n l IH] using tree_ind'. intros c A. inversion A as [? ? m k F]; subst. cbn. f_equal. clear A. revert k F. induction IH as [|t l Ht _ IHl]; intros k F; inversion F; subst; [reflexivity|]. cbn. rewrite !app_length. f_equal; auto.
Qed.

(* ---- recording ---- *)
Definition recorded (s : st) (x : nat) : Prop := In x (drops s) \/ In x (unwraps s).
Definition pairs := fix go (o c : tree) : list (nat * nat) := let 'T n l := o in let 'T m k := c in (n, m) :: (fix gos l k := match l, k with x :: r, y :: q => go x y ++ gos r q | _, _ => [] end) l k.
Definition pairss := fix gos l k := match l, k with x :: r, y :: q => pairs x y ++ gos r q | _, _ => [] end.
Lemma pairs_T n l m k : pairs (T n l) (T m k) = (n, m) :: pairss l k.
Proof. reflexivity. Qed.
Lemma pairs_combine o c : alike o c -> pairs o c = combine (ids o) (ids c).
Proof.
  revert c. induction o as [n l IH] using tree_ind'. intros c A. inversion A as [? ? m k F]; subst. rewrite pairs_T. cbn [ids combine]. f_equal. clear A.
  revert k F. induction IH as [|t l Ht _ IHl]; intros k F; inversion F as [|? c ? k' A F']; subst; [reflexivity|]. cbn. rewrite (Ht c A), (IHl k' F').
  pose proof (alike_size _ _ A) as E. clear -E. revert E. generalize (ids t), (ids c). induction l0 as [|x a IH]; intros [|y b] E; try discriminate; [reflexivity|]. cbn. f_equal. apply IH. now injection E.
Qed.
Definition note (dr un : list nat) (p : nat * nat) (s : st) : st :=
  if mem (fst p) dr then St (info s) (next s) (drops s ++ [snd p]) (unwraps s) (remaining s)
  else if mem (fst p) un then St (info s) (next s) (drops s) (unwraps s ++ [snd p]) (remaining s) else s.
Record recs (dr un : list nat) (ps : list (nat * nat)) (s s' : st) : Prop := Recs {
  r_info : info s' = info s; r_next : next s' = next s; r_rem : remaining s' = remaining s;
  r_keep : forall x, recorded s x -> recorded s' x;
  r_new : forall x y, In (x, y) ps -> In x dr \/ In x un -> recorded s' y;
  r_only : forall y, recorded s' y -> recorded s y \/ In y (map snd ps)
}.
Lemma recs_nil dr un s : recs dr un [] s s.
Proof. constructor; auto. intros x y []. Qed.
Lemma recs_app dr un a b s s1 s2 : recs dr un a s s1 -> recs dr un b s1 s2 -> recs dr un (a ++ b) s s2.
Proof.
  intros A B. constructor.
  - rewrite (r_info _ _ _ _ _ B). apply (r_info _ _ _ _ _ A).
  - rewrite (r_next _ _ _ _ _ B). apply (r_next _ _ _ _ _ A).
  - rewrite (r_rem _ _ _ _ _ B). apply (r_rem _ _ _ _ _ A).
  - intros x Hx. apply (r_keep _ _ _ _ _ B), (r_keep _ _ _ _ _ A), Hx.
  - intros x y Hxy Hx. apply in_app_iff in Hxy as [H|H]; [apply (r_keep _ _ _ _ _ B), (r_new _ _ _ _ _ A x y H Hx)|exact (r_new _ _ _ _ _ B x y H Hx)].
  - intros y Hy. rewrite map_app, in_app_iff. destruct (r_only _ _ _ _ _ B y Hy) as [H|H]; [|tauto]. destruct (r_only _ _ _ _ _ A y H); tauto.
Qed.
Lemma recs_perm dr un a b s s' : (forall p, In p a <-> In p b) -> recs dr un a s s' -> recs dr un b s s'.
Proof.
  intros H A. constructor; try apply A.
  - intros x y Hb. apply (r_new _ _ _ _ _ A). now apply H.
  - intros y Hy. destruct (r_only _ _ _ _ _ A y Hy) as [?|Hi]; [now left|right]. apply in_map_iff in Hi as (p & <- & Hp). apply in_map. now apply H.
Qed.
Lemma recs_note dr un p s : recs dr un [p] s (note dr un p s).
Proof.
  destruct p as [x y]. unfold note. cbn [fst snd]. destruct (mem x dr) eqn:Ed; [|destruct (mem x un) eqn:Eu].
  - constructor; try reflexivity; unfold recorded; cbn; intros; rewrite ?in_app_iff in *; cbn in *; try tauto. destruct H as [[= <- <-]|[]]. tauto.
  - constructor; try reflexivity; unfold recorded; cbn; intros; rewrite ?in_app_iff in *; cbn in *; try tauto. destruct H as [[= <- <-]|[]]. tauto.
  - constructor; try reflexivity; auto. intros a b [[= <- <-]|[]] [K|K]; apply mem_In in K; congruence.
Qed.
Lemma record_spec dr un o : forall c s, recs dr un (pairs o c) s (record dr un o c s).
Proof.
  induction o as [n l IH] using tree_ind'. intros [m k] s. rewrite pairs_T. cbn [record]. change ((n, m) :: pairss l k) with ([(n, m)] ++ pairss l k). eapply recs_app; [apply recs_note|].
  unfold note. cbn [fst snd]. match goal with |- recs _ _ _ ?x _ => generalize x end. intros s1. revert k. induction IH as [|t l Ht _ IHl]; intros k; [destruct k; apply recs_nil|]. destruct k as [|c k]; [apply recs_nil|]. cbn [pairss].
  apply (recs_perm dr un (pairss l k ++ pairs t c)); [intros p; rewrite !in_app_iff; tauto|]. eapply recs_app; [apply IHl|apply Ht].
Qed.

Section safety.
(* which elements may stay *)
Variable allowed : str -> str -> list (str * str) -> bool.
Definition fine (i : item) : bool := match i with Elem n ns a => allowed n ns a | _ => true end.
Definition safe (s : st) (x : nat) : Prop := fine (info s x) = true \/ recorded s x.
Variables dr un : list nat.
Variable n0 : nat.
Definition origin_ok (s : st) (x : nat) : Prop := fine (info s x) = true \/ In x dr \/ In x un.

(* what copying into one place achieves *)
Lemma copy_in_spec kids : forall l s new s', copy_in dr un kids l s = (new, s') ->
  (forall x, In x (flat_map ids kids) -> x < n0) -> n0 <= next s -> 
  NoDup (flat_map ids l) -> (forall x, In x (flat_map ids l) -> n0 <= x < next s) ->
  next s' = next s + sizes kids /\ remaining s' = remaining s /\ (forall x, x < n0 -> info s' x = info s x) /\
  NoDup (flat_map ids new) /\ (forall x, In x (flat_map ids new) -> n0 <= x < next s') /\ sizes new <= sizes l + sizes kids /\
  (forall x, recorded s x -> recorded s' x) /\ (forall x, recorded s' x -> recorded s x \/ n0 <= x < next s') /\
  (forall x, x < next s -> fine (info s' x) = fine (info s x)) /\
  ((forall x, In x (flat_map ids kids) -> origin_ok s x) -> (forall x, In x (flat_map ids l) -> safe s x) -> forall x, In x (flat_map ids new) -> safe s' x) /\
  (forall x, In x (flat_map ids new) -> In x (flat_map ids l) \/ next s <= x).
Proof.
  induction kids as [|k kids IH]; intros l s new s' E B Bn N L; cbn [copy_in] in E.
  - injection E as <- <-. assert (P : forall x, In x (flat_map ids (rev l)) <-> In x (flat_map ids l)).
    { intros x. rewrite !in_flat_map. split; intros (t & Ht & Hx); exists t; (split; [|exact Hx]); [now apply in_rev|now apply -> in_rev]. }
    assert (Sz : forall m : list tree, sizes (rev m) = sizes m). { induction m as [|y m IHm]; [reflexivity|]. cbn. rewrite flat_map_app, app_length, IHm, app_length. cbn. rewrite app_nil_r. lia. }
    cbn [flat_map List.length]. rewrite Nat.add_0_r, (Sz l). split; [reflexivity|]. split; [reflexivity|]. split; [reflexivity|].
    split; [apply NoDup_incl_NoDup with (l := flat_map ids l); [exact N|rewrite Sz; lia|intros x; apply P]|]. split; [intros x Hx; apply L, P, Hx|]. split; [lia|]. split; [auto|]. split; [auto|]. split; [auto|]. split.
    + intros _ H x Hx. apply H. now apply P.
    + intros x Hx. left. now apply P.
  - cbn [flat_map] in B. destruct (clone k s) as [c s1] eqn:Ec. destruct (clone_spec k s c s1 Ec) as (A1 & I1 & N1 & D1 & U1 & R1 & F1 & M1); [intros x Hx; specialize (B x ltac:(apply in_app_iff; now left)); lia|].
    pose proof (record_spec dr un k c s1) as Q. set (s2 := record dr un k c s1) in *. destruct (append l c s2) as [l3 s3] eqn:E3.
    assert (Ic : forall x, In x (ids c) <-> next s <= x < next s1) by (intros x; rewrite I1, in_seq; lia).
    (* the append *)
    assert (X : next s3 = next s2 /\ remaining s3 = remaining s2 /\ drops s3 = drops s2 /\ unwraps s3 = unwraps s2 /\ (forall x, fine (info s3 x) = fine (info s2 x)) /\ (forall x, x < n0 -> info s3 x = info s2 x) /\
                (l3 = l \/ l3 = c :: l)).
    { unfold append in E3. destruct (info s2 (root c)) eqn:Er.
      - injection E3 as <- <-. repeat split; auto.
      - destruct l as [|p l0]; [injection E3 as <- <-; repeat split; auto|]. destruct (info s2 (root p)) eqn:Ep; [injection E3 as <- <-; repeat split; auto| |injection E3 as <- <-; repeat split; auto].
        injection E3 as <- <-. cbn. repeat split; auto.
        + intros x. unfold upd. destruct (Nat.eqb_spec x (root p)) as [->|]; [rewrite Ep; reflexivity|reflexivity].
        + intros x Hx. unfold upd. destruct (Nat.eqb_spec x (root p)) as [->|]; [|reflexivity]. specialize (L (root p)). cbn [flat_map] in L. specialize (L ltac:(apply in_app_iff; left; apply root_in)). lia.
      - injection E3 as <- <-. repeat split; auto. }
    destruct X as (XN & XR & XD & XU & XF & XI & XL). pose proof (r_next _ _ _ _ _ Q) as QN. pose proof (r_info _ _ _ _ _ Q) as QI. pose proof (r_rem _ _ _ _ _ Q) as QR.
    assert (N3 : next s3 = next s + size_of k) by congruence.
    assert (RK : forall x, recorded s x -> recorded s3 x). { intros x Hx. unfold recorded in *. rewrite XD, XU. apply (r_keep _ _ _ _ _ Q). unfold recorded. rewrite D1, U1. exact Hx. }
    assert (Pr : map snd (pairs k c) = ids c). { rewrite (pairs_combine k c A1). pose proof (alike_size k c A1) as E0. clear -E0. revert E0. generalize (ids k), (ids c). induction l as [|x a IH]; intros [|y b] E0; try discriminate; [reflexivity|]. cbn. f_equal. apply IH. now injection E0. }
    assert (RO : forall x, recorded s3 x -> recorded s x \/ n0 <= x < next s3). { intros x Hx. unfold recorded in *. rewrite XD, XU in Hx. destruct (r_only _ _ _ _ _ Q x Hx) as [H|H]; [left; unfold recorded in H; now rewrite D1, U1 in H|]. right. rewrite Pr in H. apply Ic in H. rewrite N3, <- N1. lia. }
    assert (L3 : NoDup (flat_map ids l3) /\ (forall x, In x (flat_map ids l3) -> n0 <= x < next s3) /\ sizes l3 <= sizes l + size_of k /\ (forall x, In x (flat_map ids l3) -> In x (flat_map ids l) \/ In x (ids c))).
    { destruct XL as [->| ->].
      - split; [exact N|]. split; [intros x Hx; specialize (L x Hx); lia|]. split; [lia|auto].
      - cbn [flat_map]. split; [apply nodup_join; auto; [rewrite I1; apply seq_NoDup|intros x Hx Hl; apply Ic in Hx; specialize (L x Hl); lia]|]. split.
        + intros x Hx. apply in_app_iff in Hx as [Hx|Hx]; [apply Ic in Hx; lia|specialize (L x Hx); lia].
        + split; [rewrite app_length, <- (alike_size k c A1); lia|]. intros x Hx. apply in_app_iff in Hx. tauto. }
    destruct L3 as (L3a & L3b & L3c & L3d).
    assert (FI : forall x, x < next s -> fine (info s3 x) = fine (info s x)) by (intros x Hx; rewrite XF, QI, F1 by exact Hx; reflexivity).
    destruct (IH l3 s3 new s' E) as (H1 & H2 & H3 & H4 & H5 & H6 & H7 & H8 & H9 & H10 & H11); [intros; apply B; apply in_app_iff; now right|lia|exact L3a|exact L3b|].
    cbn [flat_map]. rewrite app_length. split; [lia|]. split; [congruence|]. split; [intros x Hx; rewrite H3 by exact Hx; rewrite XI, QI by exact Hx; apply F1; lia|]. split; [exact H4|]. split; [exact H5|]. split; [lia|]. split; [auto|].
    split; [|split; [|split]].
    + intros x Hx. destruct (H8 x Hx) as [H|H]; [|now right]. destruct (RO x H) as [?|?]; [now left|right; lia].
    + intros x Hx. rewrite H9 by lia. now apply FI.
    + intros Ho Hl x Hx. apply H10; [| |exact Hx].
      * intros y Hy. unfold origin_ok in *. rewrite FI; [apply Ho; apply in_app_iff; now right|]. specialize (B y ltac:(apply in_app_iff; now right)). lia.
      * intros y Hy. destruct (L3d y Hy) as [Hi|Hi].
        -- destruct (Hl y Hi) as [Hf|Hr]; [left; rewrite FI; [exact Hf|apply L, Hi]|right; now apply RK].
        -- (* a copy *) assert (exists z, In (z, y) (pairs k c) /\ info s1 y = info s z) as (z & Hz & Ez).
           { rewrite (pairs_combine k c A1). clear -Hi M1 A1. pose proof (alike_size k c A1) as E0. revert Hi M1 E0. generalize (ids k), (ids c). induction l as [|a l IH]; intros [|b m] Hi M1 E0; try discriminate; [destruct Hi|]. cbn in M1. injection M1 as Ma Mb.
             destruct Hi as [->|Hi]; [exists a; split; [now left|exact Ma]|]. destruct (IH m Hi Mb) as (z & Hz & Ez); [now injection E0|]. exists z. split; [now right|exact Ez]. }
           assert (In z (ids k)) as Hzk. { rewrite (pairs_combine k c A1) in Hz. now apply in_combine_l in Hz. }
           destruct (Ho z ltac:(apply in_app_iff; now left)) as [Hf|Hr].
           ++ left. rewrite XF, QI, Ez. exact Hf.
           ++ right. pose proof (r_new _ _ _ _ _ Q z y Hz Hr) as H. unfold recorded in *. now rewrite XD, XU.
    + intros x Hx. destruct (H11 x Hx) as [Hi|Hi]; [|right; lia]. destruct (L3d x Hi) as [?|Hc]; [now left|right]. apply Ic in Hc. lia.
Qed.
End safety.
