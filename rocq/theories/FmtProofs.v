(* C53: dictionaries, one segment *)
From Coq Require Import ZArith Lia ZifyBool ZifyN ZifyNat.
From Verif Require Import Str StrFacts FmtModel FmtSpec.
Open Scope N_scope.

Lemma opt_eqb_eq a b : opt_eqb a b = true <-> a = b.
Proof. destruct a as [x|], b as [y|]; cbn [opt_eqb]; try rewrite str_eqb_eq; split; congruence. Qed.
Lemma has_pair_In p a : has_pair p a = true <-> In p a.
Proof.
  unfold has_pair. rewrite existsb_exists. split.
  - intros (q & I & H). apply andb_true_iff in H as [A B]. apply str_eqb_eq in A. apply opt_eqb_eq in B. destruct p, q. cbn [fst snd] in *. congruence.
  - intros I. exists p. split; [exact I|]. apply andb_true_iff. split; [apply str_eqb_refl|apply opt_eqb_eq; reflexivity].
Qed.
Lemma same_attrs_iff a b : same_attrs a b = true <-> forall p, In p a <-> In p b.
Proof.
  unfold same_attrs. rewrite andb_true_iff, !forallb_forall. split.
  - intros [H1 H2] p. split; intros I; [specialize (H1 p I)|specialize (H2 p I)]; apply has_pair_In; assumption.
  - intros H. split; intros p I; apply has_pair_In; apply H; exact I.
Qed.
Definition keq (k1 k2 : key) : Prop := fst k1 = fst k2 /\ forall p, In p (snd k1) <-> In p (snd k2).
Lemma key_eqb_iff k1 k2 : key_eqb k1 k2 = true <-> keq k1 k2.
Proof. unfold key_eqb, keq. rewrite andb_true_iff, str_eqb_eq, same_attrs_iff. reflexivity. Qed.
Lemma key_refl k : key_eqb k k = true.
Proof. apply key_eqb_iff. split; [reflexivity|]. intros p. reflexivity. Qed.
Lemma key_sym k1 k2 : key_eqb k1 k2 = key_eqb k2 k1.
Proof. apply eq_iff_eq_true. rewrite !key_eqb_iff. unfold keq. split; intros [A B]; (split; [congruence|]); intros p; symmetry; apply B. Qed.
Lemma key_trans k1 k2 k3 : key_eqb k1 k2 = true -> key_eqb k2 k3 = key_eqb k1 k3.
Proof.
  intros H. apply key_eqb_iff in H as [A B]. apply eq_iff_eq_true. rewrite !key_eqb_iff. unfold keq. split; intros [C D]; (split; [congruence|]); intros p; [rewrite B|rewrite <- B]; apply D.
Qed.

Definition k_bucket (k : key) (d : keys) : list entry := match k_get k d with Some b => b | None => [] end.
Inductive k_ok : keys -> Prop :=
| k_nil : k_ok []
| k_cons k b d : b <> [] -> (forall k' b', In (k', b') d -> key_eqb k k' = false) -> k_ok d -> k_ok ((k, b) :: d).
Lemma kget_put k m b d : k_get m (k_put k b d) = if key_eqb k m then Some b else k_get m d.
Proof.
  induction d as [|[k0 b0] d IH]; cbn [k_put k_get]; [reflexivity|]. destruct (key_eqb k0 k) eqn:E; cbn [k_get].
  - rewrite (key_trans _ _ m E). destruct (key_eqb k0 m); reflexivity.
  - rewrite IH. destruct (key_eqb k0 m) eqn:F; [|reflexivity]. destruct (key_eqb k m) eqn:Q; [|reflexivity]. exfalso. rewrite key_sym in Q. rewrite (key_trans _ _ k F), Q in E || (rewrite <- (key_trans _ _ k F) in E; congruence).
Qed.
Lemma kput_in k b d k' b' : In (k', b') (k_put k b d) -> (b' = b /\ key_eqb k' k = true) \/ In (k', b') d.
Proof.
  induction d as [|[k0 b0] d IH]; cbn [k_put In]; [intros [H|[]]; left; assert (k' = k /\ b' = b) as [-> ->] by (split; congruence); split; [reflexivity|apply key_refl]|]. destruct (key_eqb k0 k) eqn:E; cbn [In].
  - intros [H|H]; [left; assert (k' = k0 /\ b' = b) as [-> ->] by (split; congruence); auto|right; right; exact H].
  - intros [H|H]; [right; left; exact H|]. destruct (IH H) as [G|G]; [left; exact G|right; right; exact G].
Qed.
Lemma kput_ok k b d : b <> [] -> k_ok d -> k_ok (k_put k b d).
Proof.
  intros Nb. induction 1 as [|k0 b0 d H1 H2 H3 IH]; cbn [k_put]; [constructor; [exact Nb|intros ? ? []|constructor]|]. destruct (key_eqb k0 k) eqn:E; [constructor; assumption|]. constructor; [exact H1| |exact IH].
  intros k' b' I. apply kput_in in I as [[_ Q]|I]; [|exact (H2 _ _ I)]. destruct (key_eqb k0 k') eqn:F; [|reflexivity]. rewrite (key_trans _ _ k F) in Q. congruence.
Qed.
Lemma kdel_in k d k' b' : In (k', b') (k_del k d) -> In (k', b') d.
Proof. induction d as [|[k0 b0] d IH]; cbn [k_del In]; [auto|]. destruct (key_eqb k0 k); cbn [In]; [auto|]. intros [H|H]; auto. Qed.
Lemma kdel_ok k d : k_ok d -> k_ok (k_del k d).
Proof. induction 1 as [|k0 b0 d H1 H2 H3 IH]; cbn [k_del]; [constructor|]. destruct (key_eqb k0 k); [exact H3|]. constructor; [exact H1| |exact IH]. intros k' b' I. apply kdel_in in I. exact (H2 _ _ I). Qed.
Lemma kget_absent k d : (forall k' b', In (k', b') d -> key_eqb k' k = false) -> k_get k d = None.
Proof. induction d as [|[k0 b0] d IH]; cbn [k_get]; intros H; [reflexivity|]. rewrite (H k0 b0 (or_introl eq_refl)). apply IH. intros k' b' I. apply (H k' b'). right. exact I. Qed.
Lemma kget_del k m d : k_ok d -> k_get m (k_del k d) = if key_eqb k m then None else k_get m d.
Proof.
  induction 1 as [|k0 b0 d H1 H2 H3 IH]; cbn [k_del k_get]; [destruct (key_eqb k m); reflexivity|]. destruct (key_eqb k0 k) eqn:E; cbn [k_get].
  - rewrite (key_trans _ _ m E). destruct (key_eqb k0 m) eqn:F; [|reflexivity]. apply kget_absent. intros k' b' I. rewrite key_sym. rewrite (key_trans _ _ k' F). exact (H2 _ _ I).
  - rewrite IH. destruct (key_eqb k0 m) eqn:F; [|reflexivity]. destruct (key_eqb k m) eqn:Q; [|reflexivity]. exfalso. rewrite key_sym in Q. rewrite <- (key_trans _ _ k F) in E. congruence.
Qed.
Lemma kget_ne k d b : k_ok d -> k_get k d = Some b -> b <> [].
Proof. induction 1 as [|k0 b0 d H1 H2 H3 IH]; cbn [k_get]; [discriminate|]. destruct (key_eqb k0 k); [intros H; congruence|exact IH]. Qed.
Lemma kget_bucket k d : k_ok d -> k_get k d = match k_bucket k d with [] => None | b => Some b end.
Proof. intros H. unfold k_bucket. destruct (k_get k d) as [b|] eqn:E; [|reflexivity]. pose proof (kget_ne _ _ _ H E). destruct b; [congruence|reflexivity]. Qed.
Lemma kbucket_put k m b d : k_bucket m (k_put k b d) = if key_eqb k m then b else k_bucket m d.
Proof. unfold k_bucket. rewrite kget_put. destruct (key_eqb k m); reflexivity. Qed.
Lemma kbucket_del k m d : k_ok d -> k_bucket m (k_del k d) = if key_eqb k m then [] else k_bucket m d.
Proof. intros H. unfold k_bucket. rewrite kget_del by exact H. destruct (key_eqb k m); reflexivity. Qed.

Lemma zget_put n m z d : z_get m (z_put n z d) = if str_eqb n m then Some z else z_get m d.
Proof.
  induction d as [|[k z0] d IH]; cbn [z_put z_get]; [reflexivity|]. destruct (str_eqb k n) eqn:E; cbn [z_get].
  - apply str_eqb_eq in E. subst k. destruct (str_eqb n m); reflexivity.
  - rewrite IH. destruct (str_eqb k m) eqn:F; [|reflexivity]. apply str_eqb_eq in F. subst m. destruct (str_eqb n k) eqn:Q; [|reflexivity]. apply str_eqb_eq in Q. subst n. rewrite str_eqb_refl in E. discriminate E.
Qed.
Lemma zput_keys n z d k : In k (map fst (z_put n z d)) <-> k = n \/ In k (map fst d).
Proof.
  induction d as [|[k0 b] d IH]; cbn [z_put map fst In]; [intuition congruence|]. destruct (str_eqb k0 n) eqn:E; cbn [map fst In].
  - apply str_eqb_eq in E. subst k0. intuition.
  - rewrite IH. intuition congruence.
Qed.
Lemma zput_nodup n z d : NoDup (map fst d) -> NoDup (map fst (z_put n z d)).
Proof.
  induction d as [|[k b] d IH]; cbn [z_put map fst]; intros H; [repeat constructor; intros []|]. inversion H as [|? ? N1 H1]; subst. destruct (str_eqb k n) eqn:E; cbn [map fst]; [constructor; assumption|].
  constructor; [|apply IH; exact H1]. rewrite zput_keys. intros [->|I]; [rewrite str_eqb_refl in E; discriminate E|exact (N1 I)].
Qed.
Lemma zdel_keys n d k : In k (map fst (z_del n d)) -> In k (map fst d).
Proof. induction d as [|[k0 b] d IH]; cbn [z_del map fst In]; [auto|]. destruct (str_eqb k0 n); cbn [map fst In]; intuition. Qed.
Lemma zdel_nodup n d : NoDup (map fst d) -> NoDup (map fst (z_del n d)).
Proof. induction d as [|[k b] d IH]; cbn [z_del map fst]; intros H; [constructor|]. inversion H as [|? ? N1 H1]; subst. destruct (str_eqb k n); [exact H1|]. cbn [map fst]. constructor; [|exact (IH H1)]. intros I. apply N1. exact (zdel_keys _ _ _ I). Qed.
Lemma zget_key n d z : z_get n d = Some z -> In n (map fst d).
Proof. induction d as [|[k b] d IH]; cbn [z_get map fst In]; [discriminate|]. destruct (str_eqb k n) eqn:E; [apply str_eqb_eq in E; left; exact E|intros H; right; exact (IH H)]. Qed.
Lemma zget_del n m d : NoDup (map fst d) -> z_get m (z_del n d) = if str_eqb n m then None else z_get m d.
Proof.
  intros H. induction d as [|[k b] d IH]; cbn [z_del z_get]; [destruct (str_eqb n m); reflexivity|]. inversion H as [|? ? N1 H1]; subst. destruct (str_eqb k n) eqn:E; cbn [z_get].
  - apply str_eqb_eq in E. subst k. destruct (str_eqb n m) eqn:F; [|reflexivity]. apply str_eqb_eq in F. subst m. destruct (z_get n d) eqn:G; [|reflexivity]. exfalso. apply N1. exact (zget_key _ _ _ G).
  - rewrite IH by exact H1. destruct (str_eqb k m) eqn:F; [|reflexivity]. apply str_eqb_eq in F. subst m. destruct (str_eqb n k) eqn:G; [|reflexivity]. apply str_eqb_eq in G. subst n. rewrite str_eqb_refl in E. discriminate E.
Qed.

(* ---------- one segment ---------- *)
Definition cnt (n : str) (l : list entry) : nat := List.length (filter (fun e => str_eqb (e_name e) n) l).
Definition same (k : key) (l : list entry) : list entry := filter (fun e => key_eqb k (ekey e)) l.
Record seg_ok (g : segment) (l : list entry) : Prop := {
  sg_nodup : NoDup (map fst (g_names g));
  sg_names : forall n, z_get n (g_names g) = match cnt n l with O => None | S c => Some (Z.of_nat (S c)) end;
  sg_kok : k_ok (g_keys g);
  sg_keys : match g_pending g with Some p => l = [p] /\ g_keys g = [] | None => forall k, k_bucket k (g_keys g) = same k l end;
  sg_three : forall k, (List.length (same k l) <= 3)%nat }.
Lemma same_app k a b : same k (a ++ b) = same k a ++ same k b.
Proof. apply filter_app. Qed.
Lemma same_ext k1 k2 l : key_eqb k1 k2 = true -> same k1 l = same k2 l.
Proof. intros H. unfold same. apply filter_ext. intros e. symmetry. apply key_trans. exact H. Qed.
Lemma cnt_mid n a e b : cnt n (a ++ e :: b) = (cnt n (a ++ b) + if str_eqb (e_name e) n then 1 else 0)%nat.
Proof. unfold cnt. rewrite !filter_app, !app_length. cbn [filter]. destruct (str_eqb (e_name e) n); cbn [List.length]; lia. Qed.
Lemma same_mid k a e b : same k (a ++ e :: b) = same k a ++ (if key_eqb k (ekey e) then [e] else []) ++ same k b.
Proof. unfold same. rewrite filter_app. cbn [filter]. destruct (key_eqb k (ekey e)); reflexivity. Qed.
Lemma default_spec g l n : seg_ok g l -> z_default n (g_names g) = Z.of_nat (cnt n l).
Proof. intros H. unfold z_default. rewrite (sg_names g l H). destruct (cnt n l); reflexivity. Qed.
Lemma empty_seg_ok i : seg_ok (Segment i None [] []) [].
Proof. split; cbn; [constructor|reflexivity|constructor|reflexivity|intros; lia]. Qed.
Lemma materialize_ok g l : seg_ok g l -> seg_ok (materialize g) l /\ g_pending (materialize g) = None /\ g_id (materialize g) = g_id g.
Proof.
  intros H. unfold materialize. destruct H as [A B C D F]. destruct (g_pending g) as [p|] eqn:Ep; [|split; [|split; [exact Ep|reflexivity]]; split; try assumption; rewrite Ep; exact D].
  destruct D as [-> Dk]. split; [|split; reflexivity]. unfold index_entry. split; cbn [g_names g_keys g_pending].
  - exact A.
  - exact B.
  - apply kput_ok; [intros Q; apply app_eq_nil in Q as [_ Q]; discriminate Q|exact C].
  - intros k. rewrite kbucket_put, Dk. cbn [k_get app]. unfold same. cbn [filter]. rewrite (key_sym k). destruct (key_eqb (ekey p) k); reflexivity.
  - exact F.
Qed.
Lemma no_keys g l : seg_ok g l -> g_pending g = None -> g_keys g = [] -> l = [].
Proof.
  intros H P K. pose proof (sg_keys g l H) as D. rewrite P, K in D. destruct l as [|e l]; [reflexivity|]. specialize (D (ekey e)). unfold same in D. cbn [filter] in D. rewrite key_refl in D. discriminate D.
Qed.
Lemma count_name_spec g l n m : seg_ok g l -> z_get m (g_names (count_name n g)) = if str_eqb n m then Some (Z.of_nat (S (cnt n l))) else z_get m (g_names g).
Proof. intros H. cbn [count_name g_names]. rewrite zget_put, (default_spec g l n H). destruct (str_eqb n m); [f_equal; lia|reflexivity]. Qed.
(* a new entry, indexed *)
Lemma index_ok g a b e : seg_ok g (a ++ b) -> g_pending g = None -> (List.length (same (ekey e) (a ++ b)) < 3)%nat -> same (ekey e) b = [] ->
  seg_ok (index_entry e (count_name (e_name e) g)) (a ++ e :: b).
Proof.
  intros H P L Nb. pose proof (sg_keys g _ H) as D. rewrite P in D. split; cbn [index_entry g_names g_keys g_pending g_id].
  - cbn [count_name g_names]. apply zput_nodup. exact (sg_nodup g _ H).
  - intros n. rewrite (count_name_spec g _ _ _ H), cnt_mid. destruct (str_eqb (e_name e) n) eqn:E; [apply str_eqb_eq in E; subst n; rewrite Nat.add_1_r; reflexivity|]. rewrite Nat.add_0_r. apply (sg_names g _ H).
  - cbn [count_name g_keys]. apply kput_ok; [intros Q; apply app_eq_nil in Q as [_ Q]; discriminate Q|exact (sg_kok g _ H)].
  - cbn [count_name g_pending]. rewrite P. intros k. cbn [count_name g_keys]. rewrite kbucket_put. fold (k_bucket (ekey e) (g_keys g)). rewrite D, same_mid, (key_sym k). destruct (key_eqb (ekey e) k) eqn:E.
    + rewrite <- (same_ext _ _ a E), <- (same_ext _ _ b E). rewrite same_app, Nb, !app_nil_r. reflexivity.
    + cbn [app]. rewrite D, same_app. reflexivity.
  - intros k. rewrite same_mid, (key_sym k). destruct (key_eqb (ekey e) k) eqn:E.
    + rewrite <- (same_ext _ _ a E), <- (same_ext _ _ b E). rewrite same_app in L. rewrite !app_length in *. cbn [List.length]. lia.
    + cbn [app]. rewrite <- same_app. apply (sg_three g _ H).
Qed.
(* a new entry in an empty segment, left pending *)
Lemma pend_ok g e : seg_ok g [] -> g_keys g = [] -> seg_ok (let g := count_name (e_name e) g in Segment (g_id g) (Some e) (g_names g) (g_keys g)) [e].
Proof.
  intros H K. cbv zeta. split; cbn [g_names g_keys g_pending].
  - cbn [count_name g_names]. apply zput_nodup. exact (sg_nodup g _ H).
  - intros n. rewrite (count_name_spec g _ _ _ H). unfold cnt. cbn [filter]. destruct (str_eqb (e_name e) n) eqn:E; [reflexivity|]. apply (sg_names g _ H).
  - cbn [count_name g_keys]. exact (sg_kok g _ H).
  - cbn [count_name g_keys]. split; [reflexivity|exact K].
  - intros k. unfold same. cbn [filter]. destruct (key_eqb k (ekey e)); cbn [List.length]; lia.
Qed.
Lemma remove_entry_mid e a b : (forall x, In x a -> e_id x <> e_id e) -> remove_entry e (a ++ e :: b) = Some (a ++ b).
Proof. induction a as [|x a IH]; intros H; cbn [app remove_entry]; [rewrite N.eqb_refl; reflexivity|]. destruct (N.eqb_spec (e_id x) (e_id e)); [destruct (H x (or_introl eq_refl)); assumption|]. rewrite IH; [reflexivity|]. intros y I. apply H. right. exact I. Qed.
Lemma same_In k l x : In x (same k l) -> In x l.
Proof. unfold same. intros I. apply filter_In in I as [I _]. exact I. Qed.
Lemma seg_retire_ok g a e b : seg_ok g (a ++ e :: b) -> (forall x, In x (a ++ b) -> e_id x <> e_id e) -> exists g', seg_retire e g = Some g' /\ seg_ok g' (a ++ b) /\ g_id g' = g_id g.
Proof.
  intros H U. unfold seg_retire. rewrite (default_spec g _ _ H). cbv zeta.
  assert (HN : NoDup (map fst (if (0 <? Z.of_nat (cnt (e_name e) (a ++ e :: b)) - 1)%Z then z_put (e_name e) (Z.of_nat (cnt (e_name e) (a ++ e :: b)) - 1) (g_names g) else z_del (e_name e) (g_names g)))) by (destruct (0 <? _)%Z; [apply zput_nodup|apply zdel_nodup]; exact (sg_nodup g _ H)).
  assert (HG : forall n, z_get n (if (0 <? Z.of_nat (cnt (e_name e) (a ++ e :: b)) - 1)%Z then z_put (e_name e) (Z.of_nat (cnt (e_name e) (a ++ e :: b)) - 1) (g_names g) else z_del (e_name e) (g_names g)) = match cnt n (a ++ b) with O => None | S c => Some (Z.of_nat (S c)) end).
  { intros n. rewrite cnt_mid, str_eqb_refl. destruct (Z.ltb_spec 0 (Z.of_nat (cnt (e_name e) (a ++ b) + 1) - 1)) as [L|L]; [rewrite zget_put|rewrite zget_del by exact (sg_nodup g _ H)]; (destruct (str_eqb (e_name e) n) eqn:E; [apply str_eqb_eq in E; subst n|rewrite (sg_names g _ H), cnt_mid, E, Nat.add_0_r; reflexivity]).
    - destruct (cnt (e_name e) (a ++ b)); [lia|]. f_equal. lia.
    - destruct (cnt (e_name e) (a ++ b)); [reflexivity|lia]. }
  revert HN HG. generalize (if (0 <? Z.of_nat (cnt (e_name e) (a ++ e :: b)) - 1)%Z then z_put (e_name e) (Z.of_nat (cnt (e_name e) (a ++ e :: b)) - 1) (g_names g) else z_del (e_name e) (g_names g)). intros names HN HG.
  assert (T : forall k, (List.length (same k (a ++ b)) <= 3)%nat) by (intros k; pose proof (sg_three g _ H k) as T; rewrite same_mid in T; rewrite same_app; rewrite !app_length in *; lia).
  pose proof (sg_keys g _ H) as D. destruct (g_pending g) as [p|] eqn:P.
  - destruct D as [D1 D2]. assert (a = [] /\ b = [] /\ p = e) as (-> & -> & ->) by (destruct a as [|x [|y a]]; [cbn in D1; split; [reflexivity|]; split; congruence|discriminate D1|discriminate D1]).
    rewrite N.eqb_refl. eexists. split; [reflexivity|]. split; [|reflexivity]. split; cbn [g_names g_keys g_pending]; [exact HN|exact HG|exact (sg_kok g _ H)|rewrite D2; reflexivity|exact T].
  - rewrite (kget_bucket _ _ (sg_kok g _ H)), D, same_mid, key_refl. cbn [app].
    assert (Nx : match same (ekey e) a ++ e :: same (ekey e) b with [] => None | b0 => Some b0 end = Some (same (ekey e) a ++ e :: same (ekey e) b)) by (destruct (same (ekey e) a); reflexivity). rewrite Nx. clear Nx.
    rewrite remove_entry_mid by (intros x I; apply U; apply in_or_app; left; exact (same_In _ _ _ I)).
    assert (K : forall keys', (forall k, k_bucket k keys' = if key_eqb (ekey e) k then same (ekey e) (a ++ b) else k_bucket k (g_keys g)) -> forall k, k_bucket k keys' = same k (a ++ b)).
    { intros keys' HK k. rewrite HK. destruct (key_eqb (ekey e) k) eqn:E; [apply same_ext; exact E|]. rewrite D, same_mid, same_app, (key_sym k), E. reflexivity. }
    rewrite <- same_app. destruct (same (ekey e) (a ++ b)) as [|x r] eqn:Es.
    + eexists. split; [reflexivity|]. split; [|reflexivity]. split; cbn [g_names g_keys g_pending]; [exact HN|exact HG|apply kdel_ok; exact (sg_kok g _ H)|apply K; intros k; apply kbucket_del; exact (sg_kok g _ H)|exact T].
    + eexists. split; [reflexivity|]. split; [|reflexivity]. split; cbn [g_names g_keys g_pending]; [exact HN|exact HG|apply kput_ok; [discriminate|exact (sg_kok g _ H)]|apply K; intros k; apply kbucket_put|exact T].
Qed.
