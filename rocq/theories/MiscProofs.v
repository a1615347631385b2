(* PROOFS about MiscModel *)
From Coq Require Import Lia ZifyBool ZifyN ZifyNat Permutation Sorted.
From Verif Require Import Str StrFacts MiscModel MiscSpec.
Open Scope N_scope.

(* ---------- positions ---------- *)
Fixpoint npos (k : nat) (s : str) : list nat := match s with [] => [] | c :: t => if c =? 10 then S k :: npos (S k) t else npos (S k) t end.
Lemma npos_none s : forall k, find_char 10 s = None -> npos k s = [].
Proof.
  induction s as [|c s IH]; intros k H; [reflexivity|]. cbn [find_char npos] in *. destruct (c =? 10); [discriminate H|]. apply IH. destruct (find_char 10 s); [discriminate H|reflexivity].
Qed.
Lemma npos_some s : forall k i, find_char 10 s = Some i -> npos k s = S (k + i) :: npos (S (k + i)) (skipn (S i) s).
Proof.
  induction s as [|c s IH]; intros k i H; [discriminate H|]. cbn [find_char] in H. cbn [npos]. destruct (c =? 10).
  - injection H as <-. rewrite Nat.add_0_r. reflexivity.
  - destruct (find_char 10 s) as [j|] eqn:E; [|discriminate H]. injection H as <-. rewrite (IH (S k) j eq_refl). cbn [skipn]. rewrite <- plus_n_Sm. reflexivity.
Qed.
Lemma skipn_add (s : str) : forall a b, skipn a (skipn b s) = skipn (a + b) s.
Proof. induction s as [|c s IH]; intros a b; [rewrite !skipn_nil; reflexivity|]. destruct b as [|b]; [rewrite Nat.add_0_r; reflexivity|]. rewrite Nat.add_succ_r. cbn [skipn]. apply IH. Qed.
Lemma starts_loop_npos f : forall html from, (from <= List.length html)%nat -> (List.length html < f + from)%nat -> starts_loop f html from = Some (npos from (skipn from html)).
Proof.
  induction f as [|f IH]; intros html from L1 L; [lia|]. cbn [starts_loop]. destruct (find_char 10 (skipn from html)) as [i|] eqn:E.
  - pose proof (find_char_Some _ _ _ E) as (a & b & Ea & La & _). assert (Ln : List.length (skipn from html) = (List.length a + S (List.length b))%nat) by (rewrite Ea, app_length; reflexivity). rewrite skipn_length in Ln.
    rewrite IH by lia. cbn [option_map]. rewrite (npos_some _ from i E), skipn_add. do 4 f_equal. lia.
  - rewrite npos_none by exact E. reflexivity.
Qed.
Lemma line_starts_npos html : line_starts html = Some (O :: npos O html).
Proof. unfold line_starts. rewrite starts_loop_npos by lia. reflexivity. Qed.
Lemma npos_gt s : forall k x, In x (npos k s) -> (k < x)%nat.
Proof.
  induction s as [|c s IH]; intros k x I; [destruct I|]. cbn [npos] in I. destruct (c =? 10); [destruct I as [<-|I]; [lia|]|]; apply IH in I; lia.
Qed.
Lemma npos_sorted s : forall k, StronglySorted lt (npos k s).
Proof.
  induction s as [|c s IH]; intros k; [constructor|]. cbn [npos]. destruct (c =? 10); [|apply IH]. constructor; [apply IH|]. rewrite Forall_forall. intros x I. exact (npos_gt _ _ _ I).
Qed.
Lemma sorted_nth a : StronglySorted lt a -> forall i j, (i < j < List.length a)%nat -> (nth i a O < nth j a O)%nat.
Proof.
  intros H. induction H as [|x a H IH F]; intros i j L; [cbn in L; lia|]. destruct j as [|j]; [lia|]. cbn [List.length] in L. destruct i as [|i]; cbn [nth].
  - rewrite Forall_forall in F. apply F. apply nth_In. lia.
  - apply IH. lia.
Qed.
Lemma bisect_spec a x : StronglySorted lt a -> forall f lo hi, (hi - lo < f)%nat -> (lo <= hi <= List.length a)%nat -> (forall i, i < lo -> nth i a O <= x)%nat -> (forall i, hi <= i < List.length a -> x < nth i a O)%nat ->
  (bisect f a x lo hi <= List.length a)%nat /\ (forall i, i < bisect f a x lo hi -> nth i a O <= x)%nat /\ (forall i, bisect f a x lo hi <= i < List.length a -> x < nth i a O)%nat.
Proof.
  intros St. induction f as [|f IH]; intros lo hi Lf L A B; [lia|]. cbn [bisect]. destruct (Nat.ltb_spec lo hi) as [Lt|Ge].
  - set (mid := ((lo + hi) / 2)%nat). assert (M : (lo <= mid < hi)%nat) by (unfold mid; split; [apply Nat.div_le_lower_bound; lia|apply Nat.div_lt_upper_bound; lia]).
    destruct (Nat.ltb_spec x (nth mid a O)) as [X|X].
    + apply IH; [lia|lia|exact A|]. intros i Hi. destruct (Nat.eq_dec i mid) as [->|]; [exact X|]. pose proof (sorted_nth a St mid i). lia.
    + apply IH; [lia|lia| |exact B]. intros i Hi. destruct (Nat.eq_dec i mid) as [->|]; [exact X|]. pose proof (sorted_nth a St i mid). lia.
  - split; [lia|]. split; [exact A|]. intros i Hi. apply B. lia.
Qed.
Definition count_le (x : nat) (l : list nat) : nat := List.length (filter (fun y => (y <=? x)%nat) l).
Lemma filter_all {A} (p : A -> bool) l : (forall x, In x l -> p x = true) -> filter p l = l.
Proof. induction l as [|y l IH]; intros H; [reflexivity|]. cbn [filter]. rewrite (H y (or_introl eq_refl)), IH; [reflexivity|]. intros x I. apply H. right. exact I. Qed.
Lemma filter_none {A} (p : A -> bool) l : (forall x, In x l -> p x = false) -> filter p l = [].
Proof. induction l as [|y l IH]; intros H; [reflexivity|]. cbn [filter]. rewrite (H y (or_introl eq_refl)), IH; [reflexivity|]. intros x I. apply H. right. exact I. Qed.
Lemma count_split a x r : (r <= List.length a)%nat -> (forall i, i < r -> nth i a O <= x)%nat -> (forall i, r <= i < List.length a -> x < nth i a O)%nat -> count_le x a = r.
Proof.
  intros L A B. unfold count_le. rewrite <- (firstn_skipn r a), filter_app, app_length.
  rewrite (filter_all _ (firstn r a)), (filter_none _ (skipn r a)); [rewrite firstn_length; cbn; lia| |].
  - intros y I. apply In_nth with (d := O) in I. destruct I as (i & Li & <-). rewrite skipn_length in Li. assert (E : nth i (skipn r a) O = nth (r + i) a O) by (rewrite <- (firstn_skipn r a) at 2; rewrite app_nth2; rewrite firstn_length, Nat.min_l by lia; [f_equal; lia|lia]).
    rewrite E. specialize (B (r + i)%nat ltac:(lia)). lia.
  - intros y I. apply In_nth with (d := O) in I. destruct I as (i & Li & <-). rewrite firstn_length in Li. assert (E : nth i (firstn r a) O = nth i a O) by (rewrite <- (firstn_skipn r a) at 2; rewrite app_nth1 by (rewrite firstn_length; lia); reflexivity).
    rewrite E. specialize (A i ltac:(lia)). lia.
Qed.
Lemma bisect_count a x : StronglySorted lt a -> bisect_right a x = count_le x a.
Proof.
  intros St. unfold bisect_right. destruct (bisect_spec a x St (S (List.length a)) O (List.length a)) as (A & B & C); [lia|lia|intros; lia|intros; lia|]. symmetry. apply count_split; assumption.
Qed.
Lemma count_cons x y l : count_le x (y :: l) = ((if (y <=? x)%nat then 1 else 0) + count_le x l)%nat.
Proof. unfold count_le. cbn [filter]. destruct (y <=? x)%nat; reflexivity. Qed.
Lemma walk_npos s : forall k b l m, (m <= List.length s)%nat -> (b <= k)%nat ->
  fold_left (fun p c => if c =? 10 then (S (fst p), 1%nat) else (fst p, S (snd p))) (firstn m s) (l, S (k - b)) =
  ((l + count_le (k + m) (npos k s))%nat, S (k + m - nth (count_le (k + m) (npos k s)) (b :: npos k s) O)).
Proof.
  induction s as [|c s IH]; intros k b l m L Lb.
  - cbn [List.length] in L. assert (m = O) as -> by lia. cbn [firstn fold_left npos count_le filter List.length nth]. f_equal; [unfold count_le; cbn; lia|]. unfold count_le. cbn. lia.
  - destruct m as [|m].
    + assert (C : count_le (k + 0) (npos k (c :: s)) = O).
      { unfold count_le. rewrite filter_none; [reflexivity|]. intros x I. apply npos_gt in I. lia. }
      rewrite C. cbn [firstn fold_left nth]. f_equal; lia.
    + cbn [List.length] in L. cbn [firstn fold_left npos fst snd]. destruct (c =? 10) eqn:E.
      * specialize (IH (S k) (S k) (S l) m ltac:(lia) (le_n _)). rewrite Nat.sub_diag in IH. etransitivity; [exact IH|]. rewrite count_cons. replace (k + S m)%nat with (S k + m)%nat by lia. destruct (Nat.leb_spec (S k) (S k + m)) as [|]; [|lia]. cbn [Nat.add nth]. f_equal. lia.
      * replace (S (S (k - b))) with (S (S k - b)) by lia. rewrite IH by lia. replace (k + S m)%nat with (S k + m)%nat by lia. reflexivity.
Qed.
Lemma line_col_after html pos : (pos < List.length html)%nat -> line_col html pos = Some (after (firstn pos html)).
Proof.
  intros L. unfold line_col. destruct (Nat.leb_spec (List.length html) pos) as [|_]; [lia|]. rewrite line_starts_npos. cbn [option_map].
  assert (St : StronglySorted lt (O :: npos O html)) by (constructor; [apply npos_sorted|rewrite Forall_forall; intros x I; exact (npos_gt _ _ _ I)]).
  rewrite (bisect_count _ _ St). rewrite count_cons. cbn [Nat.leb]. unfold after. pose proof (walk_npos html O O 1 pos ltac:(lia) (le_n _)) as W. cbn [Nat.sub] in W. f_equal. etransitivity; [|symmetry; exact W]. cbn [Nat.add]. rewrite Nat.sub_succ, Nat.sub_0_r. reflexivity.
Qed.
Lemma after_snoc s c : after (s ++ [c]) = if c =? 10 then (S (fst (after s)), 1%nat) else (fst (after s), S (snd (after s))).
Proof. unfold after. rewrite fold_left_app. reflexivity. Qed.
Lemma after_step s c : lex_lt (after s) (after (s ++ [c])).
Proof. rewrite after_snoc. unfold lex_lt. destruct (c =? 10); cbn [fst snd]; lia. Qed.
Lemma lex_trans a b c : lex_lt a b -> lex_lt b c -> lex_lt a c.
Proof. unfold lex_lt. lia. Qed.
Lemma after_app s t : t <> [] -> lex_lt (after s) (after (s ++ t)).
Proof.
  revert s. induction t as [|c t IH]; intros s H; [contradiction|]. destruct t as [|d t]; [apply after_step|]. replace (s ++ c :: d :: t) with ((s ++ [c]) ++ d :: t) by (rewrite <- app_assoc; reflexivity).
  apply (lex_trans _ (after (s ++ [c]))); [apply after_step|]. apply IH. discriminate.
Qed.

(* ---------- errors ---------- *)
Section Errors.
Variable E : Type.
Variables line column : E -> option N.
Notation key := (key E line column).
Notation insert := (insert E line column).
Lemma emit_all_firstn max es : emit_all E max es = firstn max es.
Proof.
  unfold emit_all. assert (G : forall acc, (List.length acc <= max)%nat -> fold_left (bounded_append E max) es acc = acc ++ firstn (max - List.length acc) es).
  { induction es as [|e es IH]; intros acc L; cbn [fold_left]; [rewrite firstn_nil; symmetry; apply app_nil_r|]. unfold bounded_append at 2. destruct (Nat.ltb_spec (List.length acc) max) as [Lt|Ge].
    - rewrite IH by (rewrite app_length; cbn; lia). rewrite app_length. cbn [List.length]. rewrite <- app_assoc. f_equal. replace (max - List.length acc)%nat with (S (max - (List.length acc + 1))) by lia. reflexivity.
    - rewrite IH by lia. replace (max - List.length acc)%nat with O by lia. reflexivity. }
  rewrite G by (cbn; lia). cbn [app List.length]. rewrite Nat.sub_0_r. reflexivity.
Qed.
Lemma insert_perm x l : Permutation (insert x l) (x :: l).
Proof. induction l as [|y l IH]; [reflexivity|]. cbn [MiscModel.insert]. destruct (key_lt (key x) (key y)); [reflexivity|]. rewrite IH. apply perm_swap. Qed.
Definition klt (a b : nat * E) : Prop := key_lt (key a) (key b) = true.
Lemma klt_trans a b c : klt a b -> klt b c -> klt a c.
Proof. unfold klt, key_lt. destruct (key a) as [[l1 c1] i1], (key b) as [[l2 c2] i2], (key c) as [[l3 c3] i3]. lia. Qed.
Lemma klt_total a b : fst a <> fst b -> key_lt (key a) (key b) = false -> klt b a.
Proof. unfold klt, key_lt, MiscModel.key. intros N0 H. lia. Qed.
Lemma klt_irrefl a : ~ klt a a.
Proof. unfold klt, key_lt. destruct (key a) as [[l1 c1] i1]. lia. Qed.
Lemma insert_sorted x l : StronglySorted klt l -> ~ In (fst x) (map fst l) -> StronglySorted klt (insert x l).
Proof.
  intros H NI. induction H as [|y l H IH F]; [repeat constructor|]. cbn [MiscModel.insert map] in *. destruct (key_lt (key x) (key y)) eqn:K.
  - constructor; [constructor; assumption|]. constructor; [exact K|]. rewrite Forall_forall in *. intros z I. exact (klt_trans _ _ _ K (F z I)).
  - constructor; [apply IH; intros Q; apply NI; right; exact Q|]. rewrite Forall_forall in *. intros z I. apply (Permutation_in _ (insert_perm x l)) in I. destruct I as [<-|I]; [|exact (F z I)]. apply klt_total; [|exact K]. intros Q. apply NI. left. symmetry. exact Q.
Qed.
Lemma fold_sorted xs : forall acc, StronglySorted klt acc -> NoDup (map fst xs ++ map fst acc) -> StronglySorted klt (fold_left (fun a x => insert x a) xs acc) /\ Permutation (fold_left (fun a x => insert x a) xs acc) (xs ++ acc).
Proof.
  induction xs as [|x xs IH]; intros acc St ND; [split; [exact St|reflexivity]|]. cbn [fold_left]. cbn [map app] in ND. apply NoDup_cons_iff in ND. destruct ND as [N1 N2].
  destruct (IH (insert x acc)) as [A B].
  - apply insert_sorted; [exact St|]. intros Q. apply N1. apply in_or_app. right. exact Q.
  - apply (Permutation_NoDup (l := fst x :: map fst xs ++ map fst acc)); [|constructor; assumption]. rewrite (Permutation_map fst (insert_perm x acc)). cbn [map]. apply Permutation_middle.
  - split; [exact A|]. rewrite B, (insert_perm x acc). cbn [app]. symmetry. apply Permutation_middle.
Qed.
Lemma index_fst (es : list E) : forall k, map fst (combine (seq k (List.length es)) es) = seq k (List.length es).
Proof. induction es as [|e es IH]; intros k; [reflexivity|]. cbn [List.length seq combine map fst]. f_equal. apply IH. Qed.
Lemma index_snd (es : list E) : forall k, map snd (combine (seq k (List.length es)) es) = es.
Proof. induction es as [|e es IH]; intros k; [reflexivity|]. cbn [List.length seq combine map snd]. f_equal. apply IH. Qed.
Definition sorted_pairs (es : list E) := fold_left (fun a x => insert x a) (combine (seq O (List.length es)) es) [].
Lemma sorted_pairs_ok es : StronglySorted klt (sorted_pairs es) /\ Permutation (sorted_pairs es) (combine (seq O (List.length es)) es).
Proof.
  destruct (fold_sorted (combine (seq O (List.length es)) es) []) as [A B]; [constructor|rewrite app_nil_r, index_fst; apply seq_NoDup|]. split; [exact A|]. rewrite app_nil_r in B. exact B.
Qed.
Lemma sorted_perm es : Permutation (sorted_errors E line column es) es.
Proof. unfold sorted_errors. destruct (sorted_pairs_ok es) as [_ B]. unfold sorted_pairs in B. rewrite (Permutation_map snd B), index_snd. reflexivity. Qed.
Definition pos_le (a b : E) : Prop := key_part (line a) < key_part (line b) \/ (key_part (line a) = key_part (line b) /\ key_part (column a) <= key_part (column b)).
Lemma map_sorted {A B} (R : A -> A -> Prop) (Q : B -> B -> Prop) (f : A -> B) l : (forall a b, R a b -> Q (f a) (f b)) -> StronglySorted R l -> StronglySorted Q (map f l).
Proof. intros H S0. induction S0 as [|x l S0 IH F]; [constructor|]. cbn [map]. constructor; [exact IH|]. rewrite Forall_forall in *. intros y I. apply in_map_iff in I. destruct I as (z & <- & Iz). exact (H _ _ (F z Iz)). Qed.
Lemma sorted_pos es : StronglySorted pos_le (sorted_errors E line column es).
Proof.
  unfold sorted_errors. destruct (sorted_pairs_ok es) as [A _]. apply (map_sorted klt); [|exact A]. intros a b H. unfold klt, key_lt, MiscModel.key in H. unfold pos_le. lia.
Qed.
(* two strictly sorted lists with the same elements are equal *)
Lemma sorted_unique {A} (R : A -> A -> Prop) : (forall a, ~ R a a) -> (forall a b c, R a b -> R b c -> R a c) -> forall l1 l2, StronglySorted R l1 -> StronglySorted R l2 -> Permutation l1 l2 -> l1 = l2.
Proof.
  intros Ir Tr. induction l1 as [|x l1 IH]; intros l2 S1 S2 P; [symmetry; apply Permutation_nil; exact P|].
  destruct l2 as [|y l2]; [symmetry in P; apply Permutation_nil in P; discriminate P|].
  inversion S1 as [|? ? S1' F1]; subst. inversion S2 as [|? ? S2' F2]; subst. rewrite Forall_forall in F1, F2.
  assert (x = y) as <-.
  { assert (I1 : In x (y :: l2)) by (apply (Permutation_in _ P); left; reflexivity). assert (I2 : In y (x :: l1)) by (apply (Permutation_in _ (Permutation_sym P)); left; reflexivity).
    destruct I1 as [->|I1]; [reflexivity|]. destruct I2 as [->|I2]; [reflexivity|]. exfalso. exact (Ir _ (Tr _ _ _ (F1 y I2) (F2 x I1))). }
  f_equal. apply (IH l2 S1' S2'). exact (Permutation_cons_inv P).
Qed.
Lemma filter_sorted {A} (R : A -> A -> Prop) p l : StronglySorted R l -> StronglySorted R (filter p l).
Proof. intros H. induction H as [|x l H IH F]; [constructor|]. cbn [filter]. destruct (p x); [|exact IH]. constructor; [exact IH|]. rewrite Forall_forall in *. intros y I. apply filter_In in I. exact (F y (proj1 I)). Qed.
Lemma filter_perm {A} (p : A -> bool) l1 l2 : Permutation l1 l2 -> Permutation (filter p l1) (filter p l2).
Proof.
  intros H. induction H as [|x l1 l2 H IH|x y l|l1 l2 l3 H1 IH1 H2 IH2]; cbn [filter]; [reflexivity| | |etransitivity; eassumption].
  - destruct (p x); [constructor; exact IH|exact IH].
  - destruct (p x), (p y); try reflexivity. apply perm_swap.
Qed.
Lemma filter_map_snd (p : E -> bool) (l : list (nat * E)) : filter p (map snd l) = map snd (filter (fun t => p (snd t)) l).
Proof. induction l as [|x l IH]; [reflexivity|]. cbn [map filter]. destruct (p (snd x)); cbn [map]; rewrite IH; reflexivity. Qed.
Lemma index_sorted (es : list E) : forall k, StronglySorted (fun a b => fst a < fst b)%nat (combine (seq k (List.length es)) es).
Proof.
  induction es as [|e es IH]; intros k; [constructor|]. cbn [List.length seq combine]. constructor; [apply IH|]. rewrite Forall_forall. intros [i z] I. apply in_combine_l in I. apply in_seq in I. cbn [fst]. lia.
Qed.
Lemma strengthen {A} (R Q : A -> A -> Prop) l : StronglySorted R l -> (forall a b, In a l -> In b l -> R a b -> Q a b) -> StronglySorted Q l.
Proof.
  intros H. induction H as [|x l H IH F]; intros K; [constructor|]. constructor; [apply IH; intros a b Ia Ib; apply K; right; assumption|]. rewrite Forall_forall in *. intros y I. apply K; [left; reflexivity|right; exact I|exact (F y I)].
Qed.
Lemma sorted_stable es l c : filter (fun e => (key_part (line e) =? l) && (key_part (column e) =? c)) (sorted_errors E line column es) = filter (fun e => (key_part (line e) =? l) && (key_part (column e) =? c)) es.
Proof.
  unfold sorted_errors. fold (sorted_pairs es). destruct (sorted_pairs_ok es) as [A B]. rewrite <- (index_snd es O) at 2. rewrite !filter_map_snd. f_equal.
  apply (sorted_unique (fun a b => fst a < fst b)%nat); [intros; lia|intros; lia| | |].
  - apply (strengthen klt); [apply filter_sorted; exact A|]. intros a b Ia Ib K. apply filter_In in Ia. apply filter_In in Ib. unfold klt, key_lt, MiscModel.key in K. lia.
  - apply filter_sorted. apply index_sorted.
  - apply filter_perm. exact B.
Qed.
End Errors.
