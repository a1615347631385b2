From Coq Require Import List Arith Bool Lia.
From Verif Require Import Str FinishModel FinishSpec FinishProofs SelectModel SelectProofs.
Import ListNotations.
Open Scope list_scope. Open Scope nat_scope.

Lemma set_below_root m new t : root (set_below m new t) = root t.
Proof. destruct t as [i l]. cbn. now destruct (i =? m). Qed.
Lemma set_below_absent m new t : ~ In m (ids t) -> set_below m new t = t.
Proof.
  induction t as [i l IH] using tree_ind'. cbn [ids set_below]. intros H. destruct (Nat.eqb_spec i m) as [->|]; [destruct H; now left|]. f_equal. assert (~ In m (flat_map ids l)) as H' by (intros ?; apply H; now right). clear H.
  induction IH as [|t l Ht _ IHl]; [reflexivity|]. cbn in H' |- *. rewrite in_app_iff in H'. rewrite Ht, IHl; tauto.
Qed.
Lemma set_below_in m new t x : In x (ids (set_below m new t)) -> In x (ids t) \/ In x (flat_map ids new).
Proof.
  induction t as [i l IH] using tree_ind'. rewrite Forall_forall in IH. cbn [ids set_below]. destruct (i =? m).
  - intros [->|H]; [left; now left|now right].
  - intros [->|H]; [left; now left|]. apply in_flat_map in H as (t & Ht & H). apply in_map_iff in Ht as (t0 & <- & Ht). destruct (IH t0 Ht H) as [?|?]; [left; right; apply in_flat_map; eauto|now right].
Qed.
Lemma set_below_spec m new t : NoDup (ids t) -> NoDup (flat_map ids new) -> (forall x, In x (ids t) -> ~ In x (flat_map ids new)) ->
  NoDup (ids (set_below m new t)) /\ size_of (set_below m new t) <= size_of t + sizes new.
Proof.
  intros N1 N2. revert N1. induction t as [i l IH] using tree_ind'. intros N1 Dj. cbn [ids set_below] in *. inversion N1 as [|? ? Ni Nl]; subst. destruct (Nat.eqb_spec i m) as [->|Nm].
  - cbn [ids]. split; [constructor; [apply Dj; now left|exact N2]|]. cbn. lia.
  - cbn [ids]. assert (W : NoDup (flat_map ids (map (set_below m new) l)) /\ sizes (map (set_below m new) l) <= sizes l + sizes new).
    { assert (Dj' : forall x, In x (flat_map ids l) -> ~ In x (flat_map ids new)) by (intros x Hx; apply Dj; now right). clear Dj N1 Ni Nm.
      induction l as [|t l IHl]; [split; [constructor|cbn; lia]|]. inversion IH as [|? ? Ht IHs]; subst. cbn [flat_map map] in *. apply nodup_app in Nl as (Na & Nb & Dab). destruct (in_dec Nat.eq_dec m (ids t)) as [Hm|Hm].
      - assert (map (set_below m new) l = l) as ->. { rewrite <- (map_id l) at 2. apply map_ext_in. intros u Hu. apply set_below_absent. intros Hi. apply (Dab m Hm). apply in_flat_map. eauto. }
        destruct (Ht Na) as [Nt Lt]; [intros x Hx; apply Dj'; apply in_app_iff; now left|]. rewrite !app_length. split; [|lia]. apply nodup_join; auto. intros x Hx Hl. destruct (set_below_in _ _ _ _ Hx) as [H|H]; [exact (Dab x H Hl)|]. apply (Dj' x); [apply in_app_iff; now right|exact H].
      - rewrite (set_below_absent m new t Hm). destruct (IHl IHs Nb) as [Nt Lt]; [intros x Hx; apply Dj'; apply in_app_iff; now right|]. rewrite !app_length. split; [|lia]. apply nodup_join; auto.
        intros x Hx Hl. apply in_flat_map in Hl as (u & Hu & Hl). apply in_map_iff in Hu as (u0 & <- & Hu). destruct (set_below_in _ _ _ _ Hl) as [H|H]; [apply (Dab x Hx); apply in_flat_map; eauto|]. apply (Dj' x); [apply in_app_iff; now left|exact H]. }
    destruct W as [Nw Lw]. split; [|cbn; lia]. constructor; [|exact Nw]. intros H. apply in_flat_map in H as (u & Hu & H). apply in_map_iff in Hu as (u0 & <- & Hu). destruct (set_below_in _ _ _ _ H) as [H'|H']; [apply Ni; apply in_flat_map; eauto|]. apply (Dj i); [now left|exact H'].
Qed.

Section safety.
Variable allowed : str -> str -> list (str * str) -> bool.
Notation fine := (fine allowed). Notation safe := (safe allowed).
Variables dr un : list nat.
Notation origin_ok := (origin_ok allowed dr un).

(* what a pass over a tree achieves *)
Record passed (n0 : nat) (t : tree) (s : st) (t' : tree) (s' : st) : Prop := Passed {
  p_sum : next s' + remaining s' = next s + remaining s;
  p_next : next s <= next s';
  p_root : root t' = root t;
  p_nodup : NoDup (ids t');
  p_ids : forall x, In x (ids t') -> In x (ids t) \/ next s <= x < next s';
  p_size : size_of t' + remaining s' <= size_of t + remaining s;
  p_info : forall x, x < n0 -> info s' x = info s x;
  p_keep : forall x, recorded s x -> recorded s' x;
  p_only : forall x, recorded s' x -> recorded s x \/ n0 <= x < next s';
  p_fine : forall x, x < next s -> fine (info s' x) = fine (info s x)
}.
Lemma fill_spec n0 chosen span : (forall o x, chosen = Some o -> In x (ids o) -> x < n0) -> forall ms t s t' s', fill_markers dr un chosen span ms t s = (t', s') -> n0 <= next s -> NoDup (ids t) -> (forall x, In x (ids t) -> x < next s) ->
  passed n0 t s t' s' /\ ((forall o x, chosen = Some o -> In x (ids o) -> origin_ok s x) -> (forall x, In x (ids t) -> safe s x) -> forall x, In x (ids t') -> safe s' x).
Proof.
  intros Bc. induction ms as [|[m pos] ms IH]; intros t s t' s' E Bn N B; cbn [fill_markers] in E.
  - injection E as <- <-. split; [|auto]. constructor; auto.
  - destruct (match span with Some (a, b) => (a <? pos) && (pos <=? b) | None => false end); [now apply (IH t s)|].
    assert (Z : forall t1, t1 = set_below m [] t -> fill_markers dr un chosen span ms t1 s = (t', s') ->
      passed n0 t s t' s' /\ ((forall o x, chosen = Some o -> In x (ids o) -> origin_ok s x) -> (forall x, In x (ids t) -> safe s x) -> forall x, In x (ids t') -> safe s' x)).
    { intros t1 E1 E2. assert (I1 : forall x, In x (ids t1) -> In x (ids t)) by (intros x Hx; subst t1; destruct (set_below_in _ _ _ _ Hx) as [?|[]]; assumption).
      destruct (set_below_spec m [] t N) as [N1 L1]; [constructor|auto|]. rewrite <- E1 in N1, L1. cbn in L1. destruct (IH t1 s t' s' E2 Bn N1) as [P S]; [auto|]. split.
      - destruct P. constructor; auto; [rewrite p_root0, E1; apply set_below_root| |lia]. intros x Hx. destruct (p_ids0 x Hx); auto.
      - intros Ho Ht. apply S; auto. }
    destruct chosen as [[o kids]|] eqn:Ec; [|exact (Z _ eq_refl E)]. destruct (Nat.leb_spec (sizes kids) (remaining s)) as [Le|Gt]; [|exact (Z _ eq_refl E)]. clear Z.
    destruct (copy_in dr un kids [] _) as [new s1] eqn:E1. pose proof E1 as E1c.
    destruct (copy_in_spec allowed dr un n0 kids _ _ _ _ E1) as (H1 & H2 & H3 & H4 & H5 & H6 & H7 & H8 & H9 & H10 & H11); [intros x Hx; apply (Bc _ x eq_refl); now right|exact Bn|constructor|intros x []|]. cbn [next remaining info] in *. cbn [flat_map List.length] in H6.
    assert (Fr : forall x, In x (flat_map ids new) -> next s <= x < next s1). { intros x Hx. destruct (H11 x Hx) as [[]|?]. specialize (H5 x Hx). lia. }
    destruct (set_below_spec m new t N H4) as [N1 L1]; [intros x Hx Hn; apply Fr in Hn; specialize (B x Hx); lia|].
    destruct (IH _ _ _ _ E) as [P S]; [lia|exact N1|intros x Hx; destruct (set_below_in _ _ _ _ Hx) as [H|H]; [specialize (B x H); lia|apply Fr, H]|]. split.
    + destruct P. constructor; try lia.
      * rewrite p_root0. apply set_below_root.
      * exact p_nodup0.
      * intros x Hx. destruct (p_ids0 x Hx) as [H|H]; [|right; lia]. destruct (set_below_in _ _ _ _ H) as [?|Hf]; [now left|right]. apply Fr in Hf. lia.
      * intros x Hx. rewrite p_info0 by exact Hx. now apply H3.
      * intros x Hx. apply p_keep0, H7. exact Hx.
      * intros x Hx. destruct (p_only0 x Hx) as [H|H]; [|now right]. destruct (H8 x H) as [?|?]; [now left|right; lia].
      * intros x Hx. rewrite p_fine0 by lia. now apply H9.
    + intros Ho Ht. apply S.
      * intros o' x [= <-] Hx. unfold SelectProofs.origin_ok in *. rewrite H9; [exact (Ho _ x eq_refl Hx)|]. specialize (Bc _ x eq_refl Hx). lia.
      * intros x Hx. destruct (set_below_in _ _ _ _ Hx) as [H|H].
        -- destruct (Ht x H) as [Hf|Hr]; [left; rewrite H9; [exact Hf|auto]|right; now apply H7].
        -- apply H10; [|intros y []|exact H]. intros y Hy. apply (Ho _ y eq_refl). now right.
Qed.
Lemma scan_chosen inf t : forall mu is di da sc, (forall o, selected (scan_tree inf mu is di da t sc) = Some o -> selected sc = Some o \/ In o (subs t)) /\
  (forall o, first (scan_tree inf mu is di da t sc) = Some o -> first sc = Some o \/ In o (subs t)).
Proof.
  induction t as [n l IH] using tree_ind'. intros mu is di da sc.
  assert (W : forall di da sc, (forall o, selected (fold_left (fun s t => scan_tree inf mu false di da t s) l sc) = Some o -> selected sc = Some o \/ In o (flat_map subs l)) /\ (forall o, first (fold_left (fun s t => scan_tree inf mu false di da t s) l sc) = Some o -> first sc = Some o \/ In o (flat_map subs l))).
  { clear -IH. intros di da. induction IH as [|t l Ht _ IHl]; intros sc; [split; intros o H; now left|]. cbn [fold_left flat_map]. destruct (IHl (scan_tree inf mu false di da t sc)) as [A B], (Ht mu false di da sc) as [C D].
    split; intros o H; rewrite in_app_iff; [destruct (A o H) as [H'|H']; [destruct (C o H')|]|destruct (B o H) as [H'|H']; [destruct (D o H')|]]; tauto. }
  cbn [scan_tree subs]. set (di' := di || _). set (da' := da || _). set (mk := negb is && is_elem (inf n) && name_is (u "selectedcontent") (inf n)). set (opt := negb is && is_elem (inf n) && name_is (u "option") (inf n) && negb da).
  assert (Z : forall (q : scan) sc1, (forall o, selected sc1 = Some o -> selected sc = Some o \/ o = T n l) /\ (forall o, first sc1 = Some o -> first sc = Some o \/ o = T n l) ->
    q = fold_left (fun s t => scan_tree inf mu false di' da' t s) l sc1 -> (forall o, selected q = Some o -> selected sc = Some o \/ T n l = o \/ In o (flat_map subs l)) /\ (forall o, first q = Some o -> first sc = Some o \/ T n l = o \/ In o (flat_map subs l))).
  { intros q sc1 [A1 A2] ->. destruct (W di' da' sc1) as [B1 B2]. split; intros o H.
    - destruct (B1 o H) as [H'|H']; [destruct (A1 o H') as [?| ->]; [now left|right; now left]|right; now right].
    - destruct (B2 o H) as [H'|H']; [destruct (A2 o H') as [?| ->]; [now left|right; now left]|right; now right]. }
  destruct opt; cbn [selected first].
  - eapply Z; [|reflexivity]. destruct mk; cbn [selected first]; (split; intros o; [destruct (has_attr (u "selected") (inf n)); [destruct mu; [destruct (selected sc); intros [= <-]; auto|intros [= <-]; auto]|now auto]|destruct (first sc); [intros [= <-]; auto|]; destruct (negb di && negb _); [intros [= <-]; auto|discriminate]]).
  - eapply Z; [|reflexivity]. destruct mk; cbn [selected first]; auto.
Qed.
Lemma subs_ids t o x : In o (subs t) -> In x (ids o) -> In x (ids t).
Proof.
  induction t as [n l IH] using tree_ind'. rewrite Forall_forall in IH. cbn [subs]. intros [<-|H] Hx; [exact Hx|]. right. apply in_flat_map in H as (t & Ht & H). apply in_flat_map. eauto.
Qed.
Lemma project_spec n0 t s t' s' : project_select dr un t s = (t', s') -> n0 <= next s -> NoDup (ids t) -> (forall x, In x (ids t) -> x < n0) ->
  passed n0 t s t' s' /\ ((forall x, In x (ids t) -> origin_ok s x) -> (forall x, In x (ids t) -> safe s x) -> forall x, In x (ids t') -> safe s' x).
Proof.
  unfold project_select. set (sc := scan_tree _ _ _ _ _ t _). intros E Bn N B. destruct (markers sc) as [|mk ms]; [injection E as <- <-; split; [constructor; auto|auto]|].
  set (chosen := match selected sc with Some o => Some o | None => first sc end) in *.
  assert (C : forall o, chosen = Some o -> In o (subs t)).
  { destruct (scan_chosen (info s) t (has_attr (u "multiple") (info s (root t))) true false false (Scan [] [] None None 0)) as [C1 C2]. fold sc in C1, C2. unfold chosen. intros o. destruct (selected sc) as [o'|]; [intros [= <-]; destruct (C1 o' eq_refl) as [[=]|?]; assumption|]. intros H. destruct (C2 o H) as [[=]|?]; assumption. }
  destruct (fill_spec n0 chosen _ ltac:(intros o x Ho Hx; apply B; exact (subs_ids _ _ _ (C o Ho) Hx)) _ _ _ _ _ E Bn N) as [P S]; [intros x Hx; specialize (B x Hx); lia|]. split; [exact P|]. intros Ho. apply S. intros o x Hc Hx. apply Ho. exact (subs_ids _ _ _ (C o Hc) Hx).
Qed.
Lemma passed_trans n0 t s t1 s1 t2 s2 : passed n0 t s t1 s1 -> passed n0 t1 s1 t2 s2 -> passed n0 t s t2 s2.
Proof.
  intros A B. pose proof (p_sum _ _ _ _ _ A). pose proof (p_next _ _ _ _ _ A). pose proof (p_size _ _ _ _ _ A). pose proof (p_sum _ _ _ _ _ B). pose proof (p_next _ _ _ _ _ B). pose proof (p_size _ _ _ _ _ B). constructor; try lia.
  - rewrite (p_root _ _ _ _ _ B). apply (p_root _ _ _ _ _ A).
  - apply (p_nodup _ _ _ _ _ B).
  - intros x Hx. destruct (p_ids _ _ _ _ _ B x Hx) as [Hy|?]; [|right; lia]. destruct (p_ids _ _ _ _ _ A x Hy) as [?|?]; [now left|right; lia].
  - intros x Hx. rewrite (p_info _ _ _ _ _ B x Hx). apply (p_info _ _ _ _ _ A x Hx).
  - intros x Hx. apply (p_keep _ _ _ _ _ B), (p_keep _ _ _ _ _ A), Hx.
  - intros x Hx. destruct (p_only _ _ _ _ _ B x Hx) as [Hy|?]; [|now right]. destruct (p_only _ _ _ _ _ A x Hy) as [?|?]; [now left|right; lia].
  - intros x Hx. rewrite (p_fine _ _ _ _ _ B x) by lia. apply (p_fine _ _ _ _ _ A x Hx).
Qed.
Lemma passed_weaken n0 n1 t s t' s' : n0 <= n1 -> passed n1 t s t' s' -> passed n0 t s t' s'.
Proof. intros L P. destruct P. constructor; auto. - intros x Hx. apply p_info0. lia. - intros x Hx. destruct (p_only0 x Hx) as [?|?]; [now left|right; lia]. Qed.
Definition walks fuel := fix go (l : list tree) (s : st) : option (list tree * st) := match l with
                           | [] => Some ([], s)
                           | x :: r => match walk fuel dr un x s with
                                       | None => None
                                       | Some (x, s) => match go r s with None => None | Some (r, s) => Some (x :: r, s) end
                                       end
                           end.
Lemma walk_S fuel t s : walk (S fuel) dr un t s = if is_elem (info s (root t)) then
      let '(T n l, s) := if name_is (u "select") (info s (root t)) then project_select dr un t s else (t, s) in
      match walks fuel l s with None => None | Some (l, s) => Some (T n l, s) end
    else Some (t, s).
Proof. reflexivity. Qed.
(* the walk always ends *)
Lemma walk_passed fuel : forall t s, size_of t + remaining s <= fuel -> NoDup (ids t) -> (forall x, In x (ids t) -> x < next s) ->
  exists t' s', walk fuel dr un t s = Some (t', s') /\ passed (next s) t s t' s'.
Proof.
  induction fuel as [|fuel IH]; intros [n l] s L N B; [cbn in L; lia|]. rewrite walk_S. destruct (is_elem _); [|exists (T n l), s; split; [reflexivity|constructor; auto]].
  assert (exists t1 s1, (if name_is (u "select") (info s (root (T n l))) then project_select dr un (T n l) s else (T n l, s)) = (t1, s1) /\ passed (next s) (T n l) s t1 s1) as ([n1 l1] & s1 & -> & P1).
  { destruct (name_is _ _); [|exists (T n l), s; split; [reflexivity|constructor; auto]]. destruct (project_select dr un (T n l) s) as [t1 s1] eqn:E. exists t1, s1. split; [reflexivity|]. destruct (project_spec (next s) _ _ _ _ E) as [P _]; auto. }
  assert (En : n1 = n) by exact (p_root _ _ _ _ _ P1). subst n1.
  assert (W : forall l s, sizes l + remaining s <= fuel -> NoDup (flat_map ids l) -> (forall x, In x (flat_map ids l) -> x < next s) ->
    exists l' s', walks fuel l s = Some (l', s') /\ (next s' + remaining s' = next s + remaining s /\ next s <= next s' /\ NoDup (flat_map ids l') /\ (forall x, In x (flat_map ids l') -> In x (flat_map ids l) \/ next s <= x < next s') /\
      sizes l' + remaining s' <= sizes l + remaining s /\ (forall x, x < next s -> info s' x = info s x) /\ (forall x, recorded s x -> recorded s' x) /\ (forall x, recorded s' x -> recorded s x \/ next s <= x < next s'))).
  { clear -IH. induction l as [|t l IHl]; intros s L N B; [exists [], s; split; [reflexivity|cbn; repeat split; auto; intros x []]|]. cbn [flat_map walks] in *. rewrite app_length in *. apply nodup_app in N as (Na & Nb & Dj).
    destruct (IH t s) as (t' & s1 & -> & P); [lia|exact Na|intros; apply B; apply in_app_iff; now left|]. destruct P.
    destruct (IHl s1) as (l' & s2 & -> & H1 & H2 & H3 & H4 & H5 & H6 & H7 & H8); [lia|exact Nb|intros x Hx; specialize (B x ltac:(apply in_app_iff; now right)); lia|]. exists (t' :: l'), s2. split; [reflexivity|]. cbn [flat_map]. rewrite app_length.
    split; [lia|]. split; [lia|]. split; [|split; [|split; [|split; [|split]]]].
    - apply nodup_join; auto. intros x Hx Hl. destruct (H4 x Hl) as [Ho|Hn]; destruct (p_ids0 x Hx) as [Ht|Hn']; try lia; [exact (Dj x Ht Ho)| |]; [specialize (B x ltac:(apply in_app_iff; now right)); lia|specialize (B x ltac:(apply in_app_iff; now left)); lia].
    - intros x Hx. rewrite in_app_iff in *. destruct Hx as [Hx|Hx]; [destruct (p_ids0 x Hx); [tauto|right; lia]|destruct (H4 x Hx); [tauto|right; lia]].
    - lia.
    - intros x Hx. rewrite H6 by lia. now apply p_info0.
    - auto.
    - intros x Hx. destruct (H8 x Hx) as [Hy|?]; [|right; lia]. destruct (p_only0 x Hy) as [?|?]; [now left|right; lia]. }
  pose proof (p_size _ _ _ _ _ P1) as Sz. cbn [ids List.length] in Sz, L. pose proof (p_nodup _ _ _ _ _ P1) as N1. cbn [ids] in N1. inversion N1 as [|? ? Nn Nl1]; subst.
  assert (B1 : forall x, In x (flat_map ids l1) -> x < next s1). { intros x Hx. pose proof (p_next _ _ _ _ _ P1). destruct (p_ids _ _ _ _ _ P1 x (or_intror Hx)) as [H'|H']; [specialize (B x H')|]; lia. }
  destruct (W l1 s1) as (l2 & s2 & -> & H1 & H2 & H3 & H4 & H5 & H6 & H7 & H8); [lia|exact Nl1|exact B1|]. exists (T n l2), s2. split; [reflexivity|].
  pose proof (p_sum _ _ _ _ _ P1). pose proof (p_next _ _ _ _ _ P1). pose proof (B n (or_introl eq_refl)) as Bn. constructor; try lia.
  - reflexivity.
  - cbn [ids]. constructor; [|exact H3]. intros Hi. destruct (H4 n Hi) as [H'|H']; [contradiction|lia].
  - cbn [ids]. intros x [->|Hx]; [left; now left|]. destruct (H4 x Hx) as [H'|H']; [|right; lia]. destruct (p_ids _ _ _ _ _ P1 x (or_intror H')) as [?|?]; [now left|right; lia].
  - cbn [ids List.length]. lia.
  - intros x Hx. rewrite H6 by lia. apply (p_info _ _ _ _ _ P1 x Hx).
  - intros x Hx. apply H7, (p_keep _ _ _ _ _ P1), Hx.
  - intros x Hx. destruct (H8 x Hx) as [Hy|?]; [|right; lia]. destruct (p_only _ _ _ _ _ P1 x Hy) as [?|?]; [now left|right; lia].
  - intros x Hx. rewrite H6 by lia. apply (p_fine _ _ _ _ _ P1 x Hx).
Qed.
End safety.
