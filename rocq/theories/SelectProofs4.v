(* what the selectedcontent elements show afterwards *)
From Coq Require Import List Arith Bool Lia.
From Verif Require Import Str StrFacts FinishModel FinishSpec FinishProofs SelectModel SelectSpec SelectProofs SelectProofs2 SelectProofs3.
Import ListNotations.
Open Scope list_scope. Open Scope nat_scope.

Lemma view_ext f g t : (forall x, In x (ids t) -> f x = g x) -> view f t = view g t.
Proof.
  induction t as [n l IH] using tree_ind'. rewrite Forall_forall in IH. intros H. cbn [view]. rewrite (H n) by now left. f_equal. apply map_ext_in. intros t Ht. apply IH; [exact Ht|]. intros x Hx. apply H. right. apply in_flat_map. eauto.
Qed.
Lemma view_alike f g o c : alike o c -> map f (ids c) = map g (ids o) -> view f c = view g o.
Proof.
  revert c. induction o as [n l IH] using tree_ind'. intros c A E. inversion A as [? ? m k F]; subst. cbn [ids map] in E. cbn [view]. injection E as E0 E. f_equal; [exact E0|]. clear A E0.
  revert k F E. induction IH as [|t l Ht _ IHl]; intros k F E; inversion F as [|? c ? k' Ac F']; subst; [reflexivity|]. cbn [flat_map map] in *. rewrite !map_app in E. pose proof (alike_size _ _ Ac) as Sz.
  assert (E2 : map f (ids c) = map g (ids t) /\ map f (flat_map ids k') = map g (flat_map ids l)).
  { clear -E Sz. revert Sz E. generalize (ids t), (ids c). induction l0 as [|a x IH]; intros [|b y] Sz E; try discriminate; [now split|]. cbn in *. injection E as Ea E. destruct (IH y) as [H1 H2]; [now injection Sz|exact E|]. split; [now rewrite Ea, H1|exact H2]. }
  destruct E2 as [Ea Eb]. f_equal; auto.
Qed.
Definition addv (acc : list seen) (c : seen) : list seen := match c, acc with V (Txt b) _, V (Txt a) k :: r => V (Txt (a ++ b)%list) k :: r | _, _ => c :: acc end.
Lemma joined_txt a k b j r : joined (V (Txt a) k :: V (Txt b) j :: r) = joined (V (Txt (a ++ b)%list) k :: r).
Proof. cbn. destruct (joined r) as [|[[| c|] x] q]; try reflexivity. now rewrite app_assoc. Qed.
Lemma joined_other x r : (match x with V (Txt _) _ => False | _ => True end) \/ (match r with V (Txt _) _ :: _ => False | _ => True end) -> joined (x :: r) = x :: joined r.
Proof.
  intros [H|H].
  - destruct x as [[| |] j]; [reflexivity|destruct H|reflexivity].
  - destruct x as [[| d|] j]; try reflexivity. destruct r as [|[[| e|] y] q]; [reflexivity|reflexivity|destruct H|reflexivity].
Qed.
Lemma add_joined xs : forall a acc, rev (fold_left addv xs (a :: acc)) = rev acc ++ joined (a :: xs).
Proof.
  induction xs as [|x xs IH]; intros a acc.
  - destruct a as [[| |] ]; reflexivity.
  - cbn [fold_left]. assert (D : (exists d k e j, a = V (Txt d) k /\ x = V (Txt e) j) \/ ((match a with V (Txt _) _ => False | _ => True end) \/ (match x with V (Txt _) _ => False | _ => True end))).
    { destruct a as [[| d|] k]; [right; now left| |right; now left]. destruct x as [[| e|] j]; [right; now right| |right; now right]. left. eauto 6. }
    destruct D as [(d & k & e & j & -> & ->)|D].
    + cbn [addv]. rewrite IH, joined_txt. reflexivity.
    + assert (addv (a :: acc) x = x :: a :: acc) as ->. { unfold addv. destruct x as [[| e|] j]; try reflexivity. destruct a as [[| d|] k]; try reflexivity. destruct D as [[]|[]]. }
      rewrite IH. cbn [rev]. rewrite <- app_assoc. cbn [app]. f_equal. symmetry. now apply joined_other.
Qed.
Lemma add_joined_nil xs : rev (fold_left addv xs []) = joined xs.
Proof. destruct xs as [|x xs]; [reflexivity|]. cbn [fold_left]. assert (addv [] x = [x]) as -> by (destruct x as [[| |] ]; reflexivity). apply add_joined. Qed.

Section fill.
Variables dr un : list nat.
Notation tt := (fun _ _ _ => true).
Lemma copy_view n0 kids : forall l s new s', copy_in dr un kids l s = (new, s') -> (forall x, In x (flat_map ids kids) -> x < n0) -> n0 <= next s -> NoDup (flat_map ids l) -> (forall x, In x (flat_map ids l) -> n0 <= x < next s) ->
  map (view (info s')) new = rev (fold_left addv (map (view (info s)) kids) (map (view (info s)) l)).
Proof.
  induction kids as [|k kids IH]; intros l s new s' E B Bn N L; cbn [copy_in] in E.
  - injection E as <- <-. cbn. apply map_rev.
  - cbn [flat_map] in B. destruct (clone k s) as [c s1] eqn:Ec. destruct (clone_spec k s c s1 Ec) as (A1 & I1 & N1 & D1 & U1 & R1 & F1 & M1); [intros x Hx; specialize (B x ltac:(apply in_app_iff; now left)); lia|].
    pose proof (record_spec dr un k c s1) as Q. set (s2 := record dr un k c s1) in *. destruct (append l c s2) as [l3 s3] eqn:E3. pose proof (r_next _ _ _ _ _ Q) as QN. pose proof (r_info _ _ _ _ _ Q) as QI.
    assert (Ic : forall x, In x (ids c) <-> next s <= x < next s1) by (intros x; rewrite I1, in_seq; lia).
    assert (Vk : view (info s2) c = view (info s) k) by (rewrite QI; now apply view_alike).
    assert (Vl : forall t, In t l -> view (info s2) t = view (info s) t). { intros t Ht. apply view_ext. intros x Hx. rewrite QI. apply F1. apply L. apply in_flat_map. eauto. }
    assert (X : next s3 = next s2 /\ (forall x, x < n0 -> info s3 x = info s2 x) /\ (l3 = l \/ l3 = c :: l) /\ map (view (info s3)) l3 = addv (map (view (info s)) l) (view (info s) k)).
    { assert (Same : map (view (info s2)) (c :: l) = view (info s) k :: map (view (info s)) l). { cbn [map]. rewrite Vk. f_equal. now apply map_ext_in. }
      destruct c as [cr cl]. unfold append in E3. cbn [root] in E3. rewrite <- Vk. cbn [view]. rewrite <- Vk in Same. cbn [view] in Same. destruct (info s2 cr) eqn:Er.
      - injection E3 as <- <-. split; [reflexivity|]. split; [auto|]. split; [now right|]. exact Same.
      - destruct l as [|p l0]; [injection E3 as <- <-; split; [reflexivity|]; split; [auto|]; split; [now right|exact Same]|]. destruct p as [pr pk]. cbn [root] in E3. assert (Hp : info s2 pr = info s pr). { rewrite QI. apply F1. apply L. now left. }
        cbn [map addv view]. rewrite <- Hp. destruct (info s2 pr) eqn:Ep; [injection E3 as <- <-; split; [reflexivity|]; split; [auto|]; split; [now right|]; rewrite Same; cbn [map view]; rewrite <- Hp; reflexivity| |injection E3 as <- <-; split; [reflexivity|]; split; [auto|]; split; [now right|]; rewrite Same; cbn [map view]; rewrite <- Hp; reflexivity].
        injection E3 as <- <-. cbn [next info map view]. split; [reflexivity|]. split; [|split; [now left|]].
        + intros x Hx. unfold upd. destruct (Nat.eqb_spec x pr) as [->|]; [|reflexivity]. specialize (L pr (or_introl eq_refl)). lia.
        + cbn [flat_map] in N. apply nodup_app in N as (Np & Nl & Dj). cbn [ids] in Np. inversion Np as [|? ? Npr Npk]; subst. rewrite upd_same. f_equal.
          * f_equal. apply map_ext_in. intros t Ht. transitivity (view (info s2) t); [|apply view_ext; intros x Hx; rewrite QI; apply F1; apply L; cbn; right; apply in_app_iff; left; apply in_flat_map; eauto].
            apply view_ext. intros x Hx. unfold upd. destruct (Nat.eqb_spec x pr) as [->|]; [|reflexivity]. destruct Npr. apply in_flat_map. eauto.
          * apply map_ext_in. intros t Ht. transitivity (view (info s2) t); [|apply Vl; now right]. apply view_ext. intros x Hx. unfold upd. destruct (Nat.eqb_spec x pr) as [->|]; [|reflexivity]. exfalso. apply (Dj pr (or_introl eq_refl)). apply in_flat_map. eauto.
      - injection E3 as <- <-. split; [reflexivity|]. split; [auto|]. split; [now right|]. exact Same. }
    destruct X as (XN & XI & XL & XV). cbn [map fold_left]. rewrite <- XV.
    assert (Vs : map (view (info s)) kids = map (view (info s3)) kids). { apply map_ext_in. intros t Ht. apply view_ext. intros x Hx. symmetry. assert (x < n0) by (apply B; apply in_app_iff; right; apply in_flat_map; eauto). rewrite XI by assumption. rewrite QI. apply F1. lia. }
    rewrite Vs. apply (IH l3 s3 new s' E); [intros; apply B; apply in_app_iff; now right|lia| |].
    + destruct XL as [->| ->]; [exact N|]. cbn [flat_map]. apply nodup_join; [rewrite I1; apply seq_NoDup|exact N|]. intros x Hx Hl. apply Ic in Hx. specialize (L x Hl). lia.
    + intros x Hx. destruct XL as [->| ->]; [specialize (L x Hx); lia|]. cbn [flat_map] in Hx. apply in_app_iff in Hx as [Hx|Hx]; [apply Ic in Hx; lia|specialize (L x Hx); lia].
Qed.

Fixpoint setall (f : nat -> option (list tree)) (t : tree) : tree := let 'T n l := t in match f n with Some new => T n new | None => T n (map (setall f) l) end.
Lemma setall_step f m new t : f m = None -> (forall x k, f x = Some k -> ~ In m (flat_map ids k)) -> set_below m new (setall f t) = setall (upd f m (Some new)) t.
Proof.
  intros Hm Hf. induction t as [n l IH] using tree_ind'. rewrite Forall_forall in IH. cbn [setall]. unfold upd at 1. destruct (Nat.eqb_spec n m) as [->|Ne].
  - rewrite Hm. cbn [set_below]. now rewrite Nat.eqb_refl.
  - destruct (f n) as [k|] eqn:Ef; cbn [set_below]; (destruct (Nat.eqb_spec n m) as [|_]; [contradiction|]); f_equal.
    + rewrite <- (map_id k) at 2. apply map_ext_in. intros t Ht. apply set_below_absent. intros Hi. apply (Hf n k Ef). apply in_flat_map. eauto.
    + rewrite map_map. apply map_ext_in. exact IH.
Qed.
Lemma setall_none f t : (forall x, In x (ids t) -> f x = None) -> setall f t = t.
Proof.
  induction t as [n l IH] using tree_ind'. rewrite Forall_forall in IH. intros H. cbn [setall]. rewrite (H n) by now left. f_equal. rewrite <- (map_id l) at 2. apply map_ext_in. intros t Ht. apply IH; [exact Ht|]. intros x Hx. apply H. right. apply in_flat_map. eauto.
Qed.

Section one.
Variables (t0 : tree) (inf0 : nat -> item) (n0 : nat) (chosen : option tree) (inner : nat -> bool) (span : option (nat * nat)) (full : bool).
Definition content : list seen := match chosen with Some (T _ kids) => joined (map (view inf0) kids) | None => [] end.
Definition csize : nat := match chosen with Some (T _ kids) => sizes kids | None => 0 end.
Record filled (f : nat -> option (list tree)) (s : st) : Prop := Filled {
  g_next : n0 <= next s;
  g_info : forall x, x < n0 -> info s x = inf0 x;
  g_new : forall m new, f m = Some new -> (forall x, In x (flat_map ids new) -> n0 <= x < next s) /\ (map (view (info s)) new = content \/ (full = false /\ new = []))
}.
Lemma fill_view : (forall o x, chosen = Some o -> In x (ids o) -> x < n0) -> forall ms f s t' s',
  fill_markers dr un chosen span ms (setall f t0) s = (t', s') -> filled f s -> NoDup (map fst ms) -> (forall m pos, In (m, pos) ms -> f m = None /\ m < n0 /\ match span with Some (a, b) => (a <? pos) && (pos <=? b) | None => false end = inner m) ->
  (full = true -> List.length ms * csize <= remaining s) ->
  exists f', t' = setall f' t0 /\ filled f' s' /\ (forall m, f' m <> None <-> f m <> None \/ (In m (map fst ms) /\ inner m = false)).
Proof.
  intros Bc. induction ms as [|[m pos] ms IH]; intros f s t' s' E F N Hm Hb; cbn [fill_markers] in E.
  - injection E as <- <-. exists f. split; [reflexivity|]. split; [exact F|]. cbn. tauto.
  - destruct (Hm m pos (or_introl eq_refl)) as (Fm & Bm & Em). rewrite Em in E. cbn [map fst] in N. inversion N as [|? ? Nm Nms]; subst. cbn [List.length] in Hb.
    assert (Rest : forall f1 s1 t1, t1 = setall f1 t0 -> fill_markers dr un chosen span ms t1 s1 = (t', s') -> filled f1 s1 -> (forall x, f1 x <> None <-> f x <> None \/ (x = m /\ inner m = false)) -> (full = true -> List.length ms * csize <= remaining s1) ->
      exists f', t' = setall f' t0 /\ filled f' s' /\ (forall x, f' x <> None <-> f x <> None \/ (In x (map fst ((m, pos) :: ms)) /\ inner x = false))).
    { intros f1 s1 t1 -> E1 F1 D1 B1. destruct (IH f1 s1 t' s' E1 F1 Nms) as (f' & -> & F' & D'); [|exact B1|].
      - intros m' pos' H'. destruct (Hm m' pos' (or_intror H')) as (Q1 & Q2 & Q3). split; [|now split]. assert (~ f1 m' <> None) as Q. { rewrite D1. intros [H|[-> _]]; [congruence|]. apply Nm. apply in_map_iff. exists (m, pos'). now split. } destruct (f1 m'); [destruct Q; discriminate|reflexivity].
      - exists f'. split; [reflexivity|]. split; [exact F'|]. intros x. rewrite D', D1. cbn [map fst In]. split; [intros [[H|[-> H]]|H]|intros [H|[[<-|H] Q]]]; tauto. }
    destruct (inner m) eqn:Ei; [apply (Rest f s _ eq_refl E F); [intros x; split; [now left|intros [H|[_ [=]]]; exact H]|intros H; specialize (Hb H); cbn [Nat.mul] in Hb; lia]|].
    assert (Up : forall new x, upd f m (Some new) x <> None <-> f x <> None \/ (x = m /\ false = false)). { intros new x. unfold upd. destruct (Nat.eqb_spec x m) as [->|]; split; intros H; [now right|discriminate|now left|destruct H as [H|[H _]]; [exact H|contradiction]]. }
    assert (Hf : forall x k, f x = Some k -> ~ In m (flat_map ids k)) by (intros x k Hk Hi; destruct (g_new _ _ F x k Hk) as [G _]; specialize (G m Hi); lia).
    assert (Empty : (content = [] \/ full = false) -> filled (upd f m (Some [])) s).
    { intros C. constructor; [exact (g_next _ _ F)|exact (g_info _ _ F)|]. intros x new. unfold upd. destruct (x =? m); [|apply (g_new _ _ F)]. intros [= <-]. split; [intros y []|]. destruct C as [->|C]; [now left|right; now split]. }
    assert (Cs : csize = match chosen with Some (T _ kids) => sizes kids | None => 0 end) by reflexivity. assert (Cc : content = match chosen with Some (T _ kids) => joined (map (view inf0) kids) | None => [] end) by reflexivity.
    destruct chosen as [[o kids]|] eqn:Ec.
    + destruct (Nat.leb_spec (sizes kids) (remaining s)) as [Le|Gt].
      * destruct (copy_in dr un kids [] _) as [new s1] eqn:E1. assert (Bk : forall x, In x (flat_map ids kids) -> x < n0) by (intros x Hx; apply (Bc _ x eq_refl); now right).
        pose proof (g_next _ _ F) as Gn.
        destruct (copy_in_spec tt dr un n0 kids _ _ _ _ E1) as (H1 & H2 & H3 & H4 & H5 & _ & _ & _ & _ & _ & H11); [exact Bk|exact Gn|constructor|intros x []|].
        pose proof (copy_view n0 kids _ _ _ _ E1 Bk Gn ltac:(constructor) ltac:(intros x [])) as V1. cbn [map info] in V1. rewrite add_joined_nil in V1. cbn [next remaining info] in *.
        apply (Rest (upd f m (Some new)) s1 _ (setall_step f m new t0 Fm Hf) E); [|apply Up|intros H; rewrite H2; specialize (Hb H); rewrite Cs in *; cbn [Nat.mul] in Hb; lia].
        destruct (copy_in_spec tt dr un (next s) kids _ _ _ _ E1) as (_ & _ & H3' & _); [intros x Hx; specialize (Bk x Hx); lia|cbn; lia|constructor|intros x []|]. cbn [info] in H3'.
        constructor; [lia|intros x Hx; rewrite H3 by exact Hx; now apply (g_info _ _ F)|]. intros x k. unfold upd. destruct (x =? m).
        -- intros [= <-]. split; [exact H5|]. left. rewrite V1, Cc. f_equal. apply map_ext_in. intros t Ht. apply view_ext. intros y Hy. apply (g_info _ _ F). apply Bk. apply in_flat_map. eauto.
        -- intros Hk. destruct (g_new _ _ F x k Hk) as [G1 G2]. split; [intros y Hy; specialize (G1 y Hy); lia|]. destruct G2 as [G2|G2]; [left|now right]. rewrite <- G2. apply map_ext_in. intros t Ht. apply view_ext. intros y Hy. apply H3'. apply G1. apply in_flat_map. eauto.
      * apply (Rest (upd f m (Some [])) s _ (setall_step f m [] t0 Fm Hf) E); [apply Empty|apply Up|intros H; specialize (Hb H); cbn [Nat.mul] in Hb; lia]. destruct full; [|now right]. exfalso. specialize (Hb eq_refl). cbn [Nat.mul] in Hb. lia.
    + apply (Rest (upd f m (Some [])) s _ (setall_step f m [] t0 Fm Hf) E); [apply Empty; left; exact Cc|apply Up|intros H; specialize (Hb H); cbn [Nat.mul] in Hb; lia].
Qed.
End one.
End fill.
