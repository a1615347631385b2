(* C38: every operation keeps index and list together; lookups *)
From Coq Require Import ZArith Lia ZifyBool ZifyN ZifyNat Sorted.
From Verif Require Import Str StrFacts StackModel StackSpec StackProofs.
Open Scope N_scope.

Lemma at_index_spec z len : at_index z len = py_index z len.
Proof.
  unfold at_index, py_index. destruct (Z.leb_spec 0 z), (Z.ltb_spec z 0); try lia; cbv zeta; match goal with |- (if ?a then _ else _) = (if ?b then _ else _) => assert (E : a = negb b) by lia; rewrite E; destruct b; cbn [negb]; [reflexivity|f_equal; lia] end.
Qed.
Lemma py_index_lt z len k : py_index z len = Some k -> (k < len)%nat.
Proof. unfold py_index. cbv zeta. destruct (_ || _) eqn:E; [discriminate|]. intros H. injection H as <-. destruct (z <? 0)%Z; lia. Qed.
Lemma bound_spec z len : clamp z len = py_bound z len.
Proof. unfold clamp, py_bound. cbv zeta. destruct (Z.leb_spec 0 z), (Z.ltb_spec z 0); try lia; f_equal; lia. Qed.
Lemma py_bound_le z len : (py_bound z len <= len)%nat.
Proof. unfold py_bound. cbv zeta. destruct (z <? 0)%Z; lia. Qed.
Lemma split_at {A} (l : list A) k : (k < List.length l)%nat -> exists y, nth_error l k = Some y /\ l = firstn k l ++ y :: skipn (S k) l /\ List.length (firstn k l) = k.
Proof.
  intros L. destruct (nth_error l k) as [y|] eqn:E; [|apply nth_error_None in E; lia]. exists y. split; [reflexivity|]. split; [|rewrite firstn_length; lia].
  revert k L E. induction l as [|z l IH]; intros k L E; [cbn in L; lia|]. destruct k as [|k]; [cbn in *; congruence|]. cbn [firstn skipn app]. f_equal. apply IH; [cbn in L; lia|exact E].
Qed.
Lemma remove_at_ok z s : good s -> match without_index z (items s) with Some l' => exists s', remove_at z s = Some s' /\ items s' = l' /\ good s' | None => remove_at z s = None end.
Proof.
  intros G. unfold without_index, remove_at. rewrite at_index_spec. destruct (py_index z (List.length (items s))) as [k|] eqn:P; [|reflexivity]. cbn [StackModel.bind].
  destruct (split_at (items s) k (py_index_lt _ _ _ P)) as (y & Ny & Es & Lk). rewrite Ny. cbn [StackModel.bind]. pose proof (del_app (firstn k (items s)) (skipn (S k) (items s)) y) as D. rewrite <- Es, Lk in D. rewrite D. cbn [StackModel.bind].
  destruct (take_ok _ _ _ _ G Es) as (s' & E & I & G'). rewrite Lk in E. exists s'. split; [exact E|]. split; assumption.
Qed.
Lemma without_first_spec it l : match list_index it l with
  | None => without_first it l = None
  | Some k => exists y, l = firstn k l ++ y :: skipn (S k) l /\ (k < List.length l)%nat /\ i_id y = i_id it /\ without_first it l = Some (firstn k l ++ skipn (S k) l)
  end.
Proof.
  induction l as [|y l IH]; [reflexivity|]. cbn [list_index without_first]. destruct (N.eqb_spec (i_id y) (i_id it)) as [E|E].
  - exists y. cbn. repeat split; [lia|exact E].
  - destruct (list_index it l) as [k|]; cbn [option_map].
    + destruct IH as (z & E1 & E2 & E3 & ->). exists z. cbn [firstn skipn app List.length]. split; [f_equal; exact E1|]. split; [lia|]. split; [exact E3|reflexivity].
    + rewrite IH. reflexivity.
Qed.
Lemma index_spec it s : good s -> index_of_node it s = list_index it (items s).
Proof.
  intros [G1 G2 G3]. unfold index_of_node. destruct (ix s) as [x|]; [|reflexivity]. specialize (G3 x eq_refl). pose proof (r_nodes _ _ G3) as H. pose proof (without_first_spec it (items s)) as W. destruct (list_index it (items s)) as [k|] eqn:E.
  - destruct W as (y & E1 & L & E3 & _). apply H. exists y. split; [|exact E3]. apply num_in. split; [lia|]. rewrite Nat.sub_0_r. rewrite E1. rewrite nth_error_app2 by (rewrite firstn_length; lia). rewrite firstn_length, Nat.min_l, Nat.sub_diag by lia. reflexivity.
  - destruct (n_get (i_id it) (x_nodes x)) as [i|] eqn:F; [|reflexivity]. exfalso. apply H in F as (y & I & Q). apply num_in in I as [_ I]. apply nth_error_In in I. clear - E I Q. induction (items s) as [|z l IH]; [destruct I|]. cbn [list_index] in E. destruct (N.eqb_spec (i_id z) (i_id it)); [discriminate E|]. destruct I as [->|I]; [congruence|]. destruct (list_index it l); [discriminate E|]. apply IH; [reflexivity|exact I].
Qed.
Lemma split_slice_spec a b n l : forall i, snd (split_slice a b n i l) = keep_where (fun i => negb ((a <=? i)%nat && (i <? b)%nat && ((i - a) mod n =? 0)%nat)) i l.
Proof. induction l as [|y l IH]; intros i; [reflexivity|]. cbn [split_slice keep_where]. rewrite <- IH. destruct (split_slice a b n (S i) l) as [d k]. destruct (_ && _ && _); reflexivity. Qed.
Lemma split_slice_count a b n l : forall i, (Z.of_nat (List.length (filter is_p l)) = count_p (fst (split_slice a b n i l)) + Z.of_nat (List.length (filter is_p (snd (split_slice a b n i l)))))%Z.
Proof.
  induction l as [|y l IH]; intros i; [reflexivity|]. cbn [split_slice]. specialize (IH (S i)). destruct (split_slice a b n (S i) l) as [d k]. cbn [fst snd] in IH. rewrite count_p_spec in IH. destruct (_ && _ && _); cbn [fst snd]; rewrite count_p_spec; cbn [filter]; destruct (is_p y); cbn [List.length]; lia.
Qed.
Lemma keep_ids f l : forall i, NoDup (map i_id l) -> NoDup (map i_id (keep_where f i l)).
Proof.
  induction l as [|y l IH]; intros i H; [constructor|]. cbn [map] in H. inversion H as [|? ? N1 H1]; subst. cbn [keep_where]. destruct (f i); [|apply IH; exact H1]. cbn [map]. constructor; [|apply IH; exact H1].
  intros I. apply N1. clear - I. revert i I. generalize (S O). intros _ i. generalize (S i). clear i. induction l as [|z l IH]; intros i I; [destruct I|]. cbn [keep_where] in I. cbn [map In]. destruct (f i); [destruct I as [I|I]; [left; exact I|]|]; right; eapply IH; exact I.
Qed.
Lemma keep_all f l : forall i, (forall j, (i <= j < i + List.length l)%nat -> f j = true) -> keep_where f i l = l.
Proof. induction l as [|y l IH]; intros i H; [reflexivity|]. cbn [keep_where List.length] in *. rewrite H by lia. f_equal. apply IH. intros j L. apply H. lia. Qed.
Lemma keep_none f l : forall i, (forall j, (i <= j < i + List.length l)%nat -> f j = false) -> keep_where f i l = [].
Proof. induction l as [|y l IH]; intros i H; [reflexivity|]. cbn [keep_where List.length] in *. rewrite H by lia. apply IH. intros j L. apply H. lia. Qed.
Lemma keep_app f a b : forall i, keep_where f i (a ++ b) = keep_where f i a ++ keep_where f (i + List.length a) b.
Proof. induction a as [|y a IH]; intros i; cbn [app keep_where List.length]; [rewrite Nat.add_0_r; reflexivity|]. rewrite IH. replace (S i + List.length a)%nat with (i + S (List.length a))%nat by lia. destruct (f i); reflexivity. Qed.
Lemma pop_to_ok : forall f start s, good s -> (List.length (items s) - start < f)%nat -> exists s', pop_to f start s = Some s' /\ items s' = firstn start (items s) /\ good s'.
Proof.
  induction f as [|f IH]; intros start s G L; [lia|]. cbn [pop_to]. destruct (Nat.ltb_spec start (List.length (items s))) as [Lt|Ge].
  - pose proof (remove_at_ok (-1) s G) as H. unfold without_index, py_index in H. cbn [Z.ltb Z.compare] in H. cbv zeta in H. destruct (_ || _) eqn:C in H; [lia|].
    replace (Z.to_nat (-1 + Z.of_nat (List.length (items s)))) with (List.length (items s) - 1)%nat in H by lia. rewrite (skipn_all2 (items s)) in H by lia. rewrite app_nil_r in H. destruct H as (s1 & E1 & I1 & G1). rewrite E1. cbn [StackModel.bind].
    destruct (IH start s1 G1) as (s' & E' & I' & G'); [rewrite I1, firstn_length; lia|]. exists s'. split; [exact E'|]. split; [|exact G']. rewrite I', I1, firstn_firstn. f_equal. lia.
  - exists s. split; [reflexivity|]. split; [symmetry; apply firstn_all2; lia|exact G].
Qed.
Lemma apply_ok o s : good s -> fresh_op o (items s) -> match plain o (items s) with Some l' => exists s', apply_op o s = Some s' /\ items s' = l' /\ good s' | None => apply_op o s = None end.
Proof.
  intros G Fr. destruct o as [it|z it|z it|z|it|z|a b n]; cbn [plain apply_op fresh_op] in *.
  - destruct (place_ok (items s) [] it s G) as (s' & E & I & G'); [rewrite app_nil_r; reflexivity|rewrite app_nil_r; exact Fr|]. exists s'. split; [|split; assumption]. unfold append_. cbv zeta. rewrite <- E. rewrite Nat.eqb_refl. reflexivity.
  - unfold insert_. cbv zeta. rewrite <- (bound_spec z (List.length (items s))). set (k := clamp z (List.length (items s))). assert (Lk : (k <= List.length (items s))%nat) by (unfold k; rewrite bound_spec; apply py_bound_le).
    assert (Ek : Z.to_nat (Z.max 0 (Z.min (if (0 <=? z)%Z then z else Z.of_nat (List.length (items s)) + z) (Z.of_nat (List.length (items s))))) = k) by reflexivity. rewrite Ek. clearbody k. clear Ek.
    assert (Ll : List.length (firstn k (items s)) = k) by (rewrite firstn_length; lia).
    destruct (place_ok (firstn k (items s)) (skipn k (items s)) it s G) as (s' & E & I & G'); [symmetry; apply firstn_skipn|rewrite firstn_skipn; exact Fr|]. exists s'. split; [|split; assumption]. rewrite Ll in E. exact E.
  - unfold set_item. rewrite at_index_spec. destruct (py_index z (List.length (items s))) as [k|] eqn:P; [|reflexivity]. cbn [StackModel.bind]. specialize (Fr k eq_refl).
    destruct (split_at (items s) k (py_index_lt _ _ _ P)) as (y & Ny & Es & Lk). rewrite Ny. cbn [StackModel.bind]. set (A := firstn k (items s)) in *. set (B := skipn (S k) (items s)) in *. clearbody A B.
    pose proof (set_app A B y it) as D. rewrite <- Es, Lk in D. rewrite D. cbn [StackModel.bind]. cbv zeta. destruct G as [G1 G2 G3]. rewrite Es in *. destruct (ids_remove _ _ _ G1) as [ND _]. pose proof (ids_insert A B it ND Fr) as ND'.
    assert (GP : (if str_eqb (i_name y) (i_name it) then p_count s else (p_count s - one_if (is_p y) + one_if (is_p it))%Z) = Z.of_nat (List.length (filter is_p (A ++ it :: B)))).
    { rewrite G2, !count_mid. destruct (str_eqb (i_name y) (i_name it)) eqn:E; [|lia]. apply str_eqb_eq in E. unfold is_p. rewrite E. reflexivity. }
    destruct (ix s) as [x|]; cbn [with_index].
    + specialize (G3 x eq_refl). rewrite num_app in G3. cbn [num Nat.add] in G3. rewrite Lk in G3. destruct (discard_ok _ _ _ _ _ G3) as (x1 & -> & R1). cbn [StackModel.bind].
      destruct (note_at_ok (num 0 A) (num (S k) B) k it x1 R1) as (x2 & -> & R2); [apply num_below; lia|apply num_above; lia|apply gap_fresh; exact Fr|]. eexists. split; [reflexivity|]. split; [reflexivity|]. split; cbn [items p_count ix]; [exact ND'|exact GP|].
      intros w H. injection H as <-. rewrite num_app. cbn [num Nat.add]. rewrite Lk. exact R2.
    + eexists. split; [reflexivity|]. split; [reflexivity|]. split; cbn [items p_count ix]; [exact ND'|exact GP|discriminate].
  - apply remove_at_ok. exact G.
  - unfold remove_. rewrite (index_spec it s G). pose proof (without_first_spec it (items s)) as W. destruct (list_index it (items s)) as [k|]; [|rewrite W; reflexivity].
    destruct W as (y & Es & L & Q & ->). cbn [StackModel.bind]. assert (y = it) as -> by (apply Fr; [rewrite Es; apply in_or_app; right; left; reflexivity|exact Q]).
    assert (Lk : List.length (firstn k (items s)) = k) by (rewrite firstn_length; lia). pose proof (del_app (firstn k (items s)) (skipn (S k) (items s)) it) as D. rewrite <- Es, Lk in D. rewrite D. cbn [StackModel.bind].
    destruct (take_ok _ _ _ _ G Es) as (s' & E & I & G'). rewrite Lk in E. exists s'. split; [exact E|]. split; assumption.
  - apply remove_at_ok. exact G.
  - unfold del_slice. cbv zeta. rewrite <- (split_slice_spec _ _ n (items s) 0).
    assert (Ea : match a with Some z => clamp z (List.length (items s)) | None => O end = match a with Some z => py_bound z (List.length (items s)) | None => O end) by (destruct a; [apply bound_spec|reflexivity]).
    assert (Eb : match b with Some z => clamp z (List.length (items s)) | None => List.length (items s) end = match b with Some z => py_bound z (List.length (items s)) | None => List.length (items s) end) by (destruct b; [apply bound_spec|reflexivity]).
    rewrite Ea, Eb. set (a' := match a with Some z => py_bound z (List.length (items s)) | None => O end). set (b' := match b with Some z => py_bound z (List.length (items s)) | None => List.length (items s) end).
    assert (La : (a' <= List.length (items s))%nat) by (unfold a'; destruct a; [apply py_bound_le|lia]). clearbody a' b'. clear Ea Eb a b.
    pose proof (split_slice_count a' b' n (items s) 0) as C. pose proof (split_slice_spec a' b' n (items s) 0) as Sp. pose proof (g_ids _ G) as ND. apply (keep_ids (fun i => negb ((a' <=? i)%nat && (i <? b')%nat && ((i - a') mod n =? 0)%nat)) _ O) in ND. rewrite <- Sp in ND.
    destruct (ix s) as [x|] eqn:X.
    + destruct ((n =? 1)%nat && (List.length (items s) <=? b')%nat) eqn:F.
      * apply andb_true_iff in F as [F1 F2]. apply Nat.eqb_eq in F1. apply Nat.leb_le in F2. subst n. destruct (pop_to_ok (S (List.length (items s))) a' s G) as (s' & E & I & G'); [lia|]. exists s'. split; [exact E|]. split; [|exact G']. rewrite I, Sp.
        rewrite <- (firstn_skipn a' (items s)) at 2. rewrite keep_app, keep_all, keep_none; [rewrite app_nil_r; reflexivity| |].
        -- intros j L. rewrite firstn_length, skipn_length in L. rewrite Nat.mod_1_r. destruct (Nat.leb_spec a' j); [|lia]. destruct (Nat.ltb_spec j b'); [|lia]. reflexivity.
        -- intros j L. rewrite firstn_length in L. destruct (Nat.leb_spec a' j); [lia|]. reflexivity.
      * destruct (split_slice a' b' n 0 (items s)) as [d l]. cbn [fst snd] in *. destruct (build_rep l ND) as (y & -> & R). eexists. split; [reflexivity|]. split; [reflexivity|]. split; cbn [items p_count ix]; [exact ND|rewrite (g_p _ G); lia|intros w H; injection H as <-; exact R].
    + destruct (split_slice a' b' n 0 (items s)) as [d l]. cbn [fst snd] in *. eexists. split; [reflexivity|]. split; [reflexivity|]. split; cbn [items p_count ix]; [exact ND|rewrite (g_p _ G); lia|discriminate].
Qed.
