(* Proofs: combinators and the two match caches. *)
From Verif Require Import Str StrFacts SerializerModel SanModel SanFacts SanTreeProofs DomModel DomSpec DomViewProofs DomProofs DomInvProofs DomFinal SelModel SelSpec SelNodeProofs SelSibProofs SelMatchProofs.
From Coq Require Import Lia.
Open Scope nat_scope.

Section S.
Variable h : heap.
Hypothesis FF : full_forest h.
Hypothesis FN : forall x p, parent h x = Some p -> is_fragment h x -> ~ is_element h x.
Hypothesis DB : forall x, exists n, depth (fun x => parent h x) x n /\ n <= hnext h.
Variable over : nat -> bool.
Let F := ff_forest h FF.
Variable level : nat.
Variable deeper : nat -> selector -> M bool.
Hypothesis deeper_keeps : forall x s, arg_ok s -> keeps (deeper x s).
Hypothesis deeper_exact : forall x s, arg_ok s -> is_element h x -> exact (deeper x s) (sat h s x).
(* the compound with a given number *)
Variable ci : nat -> compound.
Definition known (c : compound) : Prop := ci (cid c) = c /\ comp_ok c.

Notation sc := (sat_compound h).

Lemma key_eqb_eq a b : key_eqb a b = true <-> a = b.
Proof.
  destruct a as [[x y] z], b as [[x' y'] z']. unfold key_eqb. rewrite !andb_true_iff, !Nat.eqb_eq. split; [intros [[-> ->] ->]; reflexivity|]. intros H. injection H as -> -> ->. auto.
Qed.
Lemma lookup_app {A} k (a b : list (nat * nat * nat * A)) : lookup k (a ++ b) = match lookup k a with Some v => Some v | None => lookup k b end.
Proof. induction a as [|[k' v] a IH]; [reflexivity|]. cbn [app lookup]. destruct (key_eqb k k'); [reflexivity|exact IH]. Qed.
Lemma lookup_In {A} k (l : list (nat * nat * nat * A)) v : lookup k l = Some v -> In (k, v) l.
Proof.
  induction l as [|[k' v'] l IH]; intros H; [discriminate H|]. cbn [lookup] in H. destruct (key_eqb k k') eqn:E; [apply key_eqb_eq in E; left; congruence|right; auto].
Qed.
Lemma lookup_remember (c : compound) (f : option nat) (nodes : list nat) l i d n v :
  lookup (i, d, n) (rev (map (fun n => (cid c, level, n, f)) nodes) ++ l) = Some v ->
  (i = cid c /\ d = level /\ In n nodes /\ v = f) \/ lookup (i, d, n) l = Some v.
Proof.
  rewrite lookup_app. destruct (lookup (i, d, n) (rev (map (fun n => (cid c, level, n, f)) nodes))) as [w|] eqn:E; [|auto].
  intros H. injection H as <-. left. apply lookup_In in E. apply in_rev in E. apply in_map_iff in E. destruct E as [m [Q Hm]]. injection Q as <- <- <- <-. auto.
Qed.

Lemma lookup_other (c : compound) (f : option nat) (nodes : list nat) l i d n : i <> cid c ->
  lookup (i, d, n) (rev (map (fun n => (cid c, level, n, f)) nodes) ++ l) = lookup (i, d, n) l.
Proof.
  intros Hi. rewrite lookup_app. destruct (lookup (i, d, n) (rev (map (fun n => (cid c, level, n, f)) nodes))) as [w|] eqn:Q; [|reflexivity].
  exfalso. apply lookup_In in Q. apply in_rev in Q. apply in_map_iff in Q. destruct Q as [m [Q Hm]]. injection Q as Q1 _ _ _. congruence.
Qed.

(* ---- ancestors ---- *)
Lemma above_trans a b c : above h a b -> above h b c -> above h a c.
Proof. intros H1 H2. revert a H1. induction H2; intros z Hz; [exact Hz|]. eapply above_up; eauto. Qed.
Lemma above_linear a b x : above h a x -> above h b x -> above h a b \/ above h b a.
Proof.
  intros H1. revert b. induction H1 as [x|a x p P H1 IH]; intros b H2; [right; exact H2|].
  inversion H2 as [|? ? q Q H3]; subst; [left; eapply above_up; eauto|]. assert (q = p) as -> by congruence. apply IH. exact H3.
Qed.
(* the nearest node at or above [a] that satisfies [c] *)
Definition near (c : compound) (a : option nat) (r : option nat) : Prop :=
  match r with
  | Some z => exists q, a = Some q /\ above h z q /\ sc c z /\ forall y, above h y q -> sc c y -> above h y z
  | None => forall q y, a = Some q -> above h y q -> ~ sc c y
  end.
Definition sound_at (c : compound) (a : option nat) (r : option nat) : Prop := forall z, r = Some z -> exists q, a = Some q /\ above h z q /\ sc c z.
Lemma near_sound c a r : near c a r -> sound_at c a r.
Proof. intros H z ->. destruct H as [q [H1 [H2 [H3 _]]]]. exists q. auto. Qed.

Definition anc_sound (s : qstate) : Prop := forall i d n r, lookup (i, d, n) (anc_cache s) = Some r -> sound_at (ci i) (parent h n) r.
Lemma caches_anc s s' : caches s' = caches s -> anc_cache s' = anc_cache s. Proof. unfold caches. congruence. Qed.
Lemma caches_prev s s' : caches s' = caches s -> prev_cache s' = prev_cache s. Proof. unfold caches. congruence. Qed.

Lemma walk_sound fuel : forall c a path st r path' st', known c -> anchored c = true -> anc_sound st ->
  walk_up h over level deeper fuel c a path st = MOk (r, path') st' ->
  caches st' = caches st /\ sound_at c a r /\ exists new, path' = (path ++ new)%list /\ forall n, In n new -> sound_at c (parent h n) r.
Proof.
  induction fuel as [|fuel IH]; intros c a path st r path' st' K A S E; cbn [walk_up] in E; [discriminate E|].
  destruct a as [a|]; [|injection E as <- <- <-; split; [reflexivity|]; split; [intros z Q; discriminate Q|]; exists []; split; [rewrite app_nil_r; reflexivity|intros n []]].
  unfold bind at 1 in E. destruct (tick over st) as [[] s1|e] eqn:T; [|discriminate E]. apply keeps_tick in T.
  pose proof (caches_anc _ _ T) as Ta. rewrite Ta in E.
  destruct (lookup (cid c, level, a) (anc_cache st)) as [found|] eqn:L.
  - injection E as -> <- <-. split; [exact T|]. specialize (S _ _ _ _ L). rewrite (proj1 K) in S. split.
    + intros z Hz. destruct (S z Hz) as [q [Q1 [Q2 Q3]]]. exists a. split; [reflexivity|]. split; [eapply above_up; eauto|exact Q3].
    + exists []. split; [rewrite app_nil_r; reflexivity|intros n []].
  - unfold bind in E. destruct (matches_compound h over deeper a c s1) as [b s2|e] eqn:Mc; [|discriminate E].
    pose proof (compound_keeps h over deeper deeper_keeps _ _ (proj2 K) _ _ _ Mc) as C2.
    pose proof (compound_exact h FF FN DB over deeper deeper_exact _ _ (proj2 K) (or_intror A) _ _ _ Mc) as X2.
    destruct b.
    + injection E as <- <- <-. split; [congruence|]. split.
      * intros z Hz. injection Hz as <-. exists a. split; [reflexivity|]. split; [constructor|apply X2; reflexivity].
      * exists []. split; [rewrite app_nil_r; reflexivity|intros n []].
    + assert (S2 : anc_sound s2) by (intros i d n w; rewrite (caches_anc _ _ C2), Ta; apply S).
      destruct (IH _ _ _ _ _ _ _ K A S2 E) as [C3 [SA [new [-> Hn]]]]. split; [congruence|]. split.
      * intros z Hz. destruct (SA z Hz) as [q [Q1 [Q2 Q3]]]. exists a. split; [reflexivity|]. split; [eapply above_up; eauto|exact Q3].
      * exists (a :: new). split; [rewrite <- app_assoc; reflexivity|]. intros n [<- | Hin]; [exact SA|auto].
Qed.
Lemma closest_sound x c st r st' : known c -> anchored c = true -> anc_sound st -> closest h over level deeper x c st = MOk r st' ->
  anc_sound st' /\ prev_cache st' = prev_cache st /\ sound_at c (parent h x) r.
Proof.
  intros K A S E. unfold closest in E. destruct (lookup (cid c, level, x) (anc_cache st)) as [found|] eqn:L.
  - injection E as -> ->. split; [exact S|]. split; [reflexivity|]. specialize (S _ _ _ _ L). rewrite (proj1 K) in S. exact S.
  - unfold bind in E. destruct (walk_up h over level deeper (Datatypes.S (hnext h)) c (par (cell_at h x)) [] st) as [[f path] s1|e] eqn:W; [|discriminate E].
    cbn [fst snd remember] in E. unfold ret_ in E. injection E as <- <-. destruct (walk_sound _ _ _ _ _ _ _ _ K A S W) as [C [SA [new [-> Hn]]]]. cbn [app] in *.
    split; [|split; [exact (caches_prev _ _ C)|exact SA]]. intros i d n w. cbn [anc_cache]. intros Q. apply (lookup_remember c f (x :: new)) in Q.
    destruct Q as [[-> [-> [Hin ->]]] | Q]; [|rewrite (caches_anc _ _ C) in Q; exact (S _ _ _ _ Q)]. rewrite (proj1 K). destruct Hin as [<- | Hin]; [exact SA|auto].
Qed.

(* exactness of the ancestor search *)
Definition anc_exact_for (c : compound) (s : qstate) : Prop :=
  forall n r, lookup (cid c, level, n) (anc_cache s) = Some r -> ~ sc c n /\ near c (parent h n) r.
Lemma near_skip c a r : ~ sc c a -> near c (parent h a) r -> near c (Some a) r.
Proof.
  intros N H. destruct r as [z|].
  - destruct H as [q [Q1 [Q2 [Q3 Q4]]]]. exists a. split; [reflexivity|]. split; [eapply above_up; eauto|]. split; [exact Q3|]. intros y Hy Sy.
    inversion Hy as [|? ? p Hp Ap]; subst; [contradiction|]. assert (p = q) as -> by congruence. auto.
  - intros q y Q Hy Sy. injection Q as <-. inversion Hy as [|? ? p Hp Ap]; subst; [contradiction|]. exact (H p y Hp Ap Sy).
Qed.
Lemma walk_exact fuel : forall c a path st r path' st', known c -> anchored c = true -> anc_exact_for c st ->
  walk_up h over level deeper fuel c a path st = MOk (r, path') st' ->
  caches st' = caches st /\ near c a r /\ exists new, path' = (path ++ new)%list /\ forall n, In n new -> ~ sc c n /\ near c (parent h n) r.
Proof.
  induction fuel as [|fuel IH]; intros c a path st r path' st' K A S E; cbn [walk_up] in E; [discriminate E|].
  destruct a as [a|]; [|injection E as <- <- <-; split; [reflexivity|]; split; [intros q y Q; discriminate Q|]; exists []; split; [rewrite app_nil_r; reflexivity|intros n []]].
  unfold bind at 1 in E. destruct (tick over st) as [[] s1|e] eqn:T; [|discriminate E]. apply keeps_tick in T.
  pose proof (caches_anc _ _ T) as Ta. rewrite Ta in E.
  destruct (lookup (cid c, level, a) (anc_cache st)) as [found|] eqn:L.
  - injection E as -> <- <-. split; [exact T|]. destruct (S _ _ L) as [S1 S2]. split; [apply near_skip; assumption|].
    exists []. split; [rewrite app_nil_r; reflexivity|intros n []].
  - unfold bind in E. destruct (matches_compound h over deeper a c s1) as [b s2|e] eqn:Mc; [|discriminate E].
    pose proof (compound_keeps h over deeper deeper_keeps _ _ (proj2 K) _ _ _ Mc) as C2.
    pose proof (compound_exact h FF FN DB over deeper deeper_exact _ _ (proj2 K) (or_intror A) _ _ _ Mc) as X2.
    destruct b.
    + injection E as <- <- <-. split; [congruence|]. split.
      * exists a. split; [reflexivity|]. split; [constructor|]. split; [apply X2; reflexivity|auto].
      * exists []. split; [rewrite app_nil_r; reflexivity|intros n []].
    + assert (Na : ~ sc c a) by (intros Q; apply X2 in Q; discriminate Q).
      assert (S2 : anc_exact_for c s2) by (intros n w; rewrite (caches_anc _ _ C2), Ta; apply S).
      destruct (IH _ _ _ _ _ _ _ K A S2 E) as [C3 [SA [new [-> Hn]]]]. split; [congruence|]. split; [apply near_skip; assumption|].
      exists (a :: new). split; [rewrite <- app_assoc; reflexivity|]. intros n [<- | Hin]; [split; assumption|auto].
Qed.
Lemma closest_exact x c st r st' : known c -> anchored c = true -> anc_exact_for c st -> closest h over level deeper x c st = MOk r st' ->
  prev_cache st' = prev_cache st /\ near c (parent h x) r /\ (forall i d n, i <> cid c -> lookup (i, d, n) (anc_cache st') = lookup (i, d, n) (anc_cache st)) /\
  (~ sc c x -> anc_exact_for c st').
Proof.
  intros K A S E. unfold closest in E. destruct (lookup (cid c, level, x) (anc_cache st)) as [found|] eqn:L.
  - injection E as -> ->. split; [reflexivity|]. destruct (S _ _ L) as [S1 S2]. split; [exact S2|]. split; [reflexivity|]. intros _. exact S.
  - unfold bind in E. destruct (walk_up h over level deeper (Datatypes.S (hnext h)) c (par (cell_at h x)) [] st) as [[f path] s1|e] eqn:W; [|discriminate E].
    cbn [fst snd remember] in E. unfold ret_ in E. injection E as <- <-. destruct (walk_exact _ _ _ _ _ _ _ _ K A S W) as [C [SA [new [-> Hn]]]]. cbn [app anc_cache prev_cache] in *.
    split; [exact (caches_prev _ _ C)|]. split; [exact SA|]. split.
    + intros i d n Hi. pose proof (lookup_other c f (x :: new) (anc_cache s1) i d n Hi) as Q. rewrite (caches_anc _ _ C) in Q at 2. exact Q.
    + intros Nx n w Q. cbn [anc_cache] in Q. apply (lookup_remember c f (x :: new)) in Q. destruct Q as [[_ [_ [Hin ->]]] | Q]; [|rewrite (caches_anc _ _ C) in Q; exact (S _ _ Q)].
      destruct Hin as [<- | Hin]; [split; assumption|auto].
Qed.

(* ---- siblings ---- *)
Definition last_sat (c : compound) (l : list nat) (init r : option nat) : Prop :=
  (exists a z b, l = (a ++ z :: b)%list /\ r = Some z /\ sc c z /\ forall y, In y b -> ~ sc c y) \/ (r = init /\ forall y, In y l -> ~ sc c y).
Lemma get_last_after x l : forall r, (forall v, ~ In (x, v) l) -> get_last x l r = r.
Proof.
  induction l as [|[k v] l IH]; intros r H; [reflexivity|]. cbn [get_last]. assert (k =? x = false) as -> by (apply Nat.eqb_neq; intros ->; apply (H v); left; reflexivity).
  apply IH. intros w Q. apply (H w). right. exact Q.
Qed.
Lemma sib_loop_keys c l : forall lm st d st', sib_loop h over deeper c l lm st = MOk d st' -> map fst d = l.
Proof.
  induction l as [|y l IH]; intros lm st d st' E; cbn [sib_loop] in E; [injection E as <- _; reflexivity|].
  unfold bind in E. destruct (tick over st) as [[] s1|e]; [|discriminate E]. destruct ((if elem h y then matches_compound h over deeper y c else ret_ false) s1) as [b s2|e]; [|discriminate E].
  destruct (sib_loop h over deeper c l (if b then Some y else lm) s2) as [r s3|e] eqn:R; [|discriminate E]. injection E as <- _. cbn [map fst]. f_equal. eapply IH; eauto.
Qed.
Lemma sib_loop_spec c : known c -> forall l lm st d st', sib_loop h over deeper c l lm st = MOk d st' ->
  caches st' = caches st /\ (NoDup l -> forall l1 x l2 r0, l = (l1 ++ x :: l2)%list -> last_sat c l1 lm (get_last x d r0)).
Proof.
  intros K. induction l as [|y l IH]; intros lm st d st' E; cbn [sib_loop] in E.
  - injection E as <- <-. split; [reflexivity|]. intros _ l1 x l2 r0 Q. destruct l1; discriminate Q.
  - unfold bind in E. destruct (tick over st) as [[] s1|e] eqn:T; [|discriminate E]. apply keeps_tick in T.
    destruct ((if elem h y then matches_compound h over deeper y c else ret_ false) s1) as [b s2|e] eqn:Mc; [|discriminate E].
    destruct (sib_loop h over deeper c l (if b then Some y else lm) s2) as [r s3|e] eqn:R; [|discriminate E]. injection E as <- <-.
    assert (C2 : caches s2 = caches s1 /\ (b = true <-> sc c y)).
    { destruct (elem h y) eqn:Ey.
      - split; [exact (compound_keeps h over deeper deeper_keeps _ _ (proj2 K) _ _ _ Mc)|].
        apply elem_spec in Ey. exact (compound_exact h FF FN DB over deeper deeper_exact _ _ (proj2 K) (or_introl Ey) _ _ _ Mc).
      - injection Mc as <- <-. split; [reflexivity|]. apply elem_false in Ey. split; [intros Q; discriminate Q|]. intros [Q _]. contradiction. }
    destruct C2 as [C2 Xb]. pose proof (sib_loop_keys _ _ _ _ _ _ R) as Kr. destruct (IH _ _ _ _ R) as [C3 L]. split; [congruence|].
    intros ND l1 x l2 r0 Q. apply NoDup_cons_iff in ND. destruct ND as [Ny ND]. cbn [get_last].
    destruct l1 as [|z l1]; cbn [app] in Q; injection Q as -> Q.
    + subst l2. rewrite Nat.eqb_refl. right. split; [|intros w []]. apply get_last_after. intros v Hv. apply Ny. rewrite <- Kr. apply in_map_iff. exists (x, v). auto.
    + assert (z =? x = false) as -> by (apply Nat.eqb_neq; intros ->; apply Ny; rewrite Q; apply in_or_app; right; left; reflexivity).
      destruct (L ND l1 x l2 r0 Q) as [[a [w [b' [-> [H1 [H2 H3]]]]]] | [H1 H2]].
      * left. exists (z :: a), w, b'. auto.
      * destruct b.
        -- left. exists [], z, l1. split; [reflexivity|]. split; [exact H1|]. split; [apply Xb; reflexivity|exact H2].
        -- right. split; [exact H1|]. intros w [<- | Hw]; [intros Q'; apply Xb in Q'; discriminate Q'|auto].
Qed.
Definition prev_exact (s : qstate) : Prop :=
  forall p i d dict, lookup (p, i, d) (prev_cache s) = Some dict -> forall l1 x l2, children h p = (l1 ++ x :: l2)%list -> last_sat (ci i) l1 None (get_last x dict None).
(* the nearest sibling before [x] that satisfies [c] *)
Definition near_sib (c : compound) (x : nat) (r : option nat) : Prop :=
  match r with
  | Some z => related h Sib z x /\ sc c z /\ forall y, related h Sib y x -> sc c y -> y = z \/ related h Sib y z
  | None => forall y, related h Sib y x -> ~ sc c y
  end.
Lemma last_sat_near c x p l1 l2 r : parent h x = Some p -> children h p = (l1 ++ x :: l2)%list -> (forall a b, sibling_list h x a b -> a = l1 /\ b = l2) ->
  last_sat c l1 None r -> near_sib c x r.
Proof.
  intros P C U [[a [z [b [-> [-> [S N]]]]]] | [-> N]].
  - cbn [near_sib]. split; [exists (a ++ z :: b)%list, l2; split; [exists p; auto|apply in_or_app; right; left; reflexivity]|]. split; [exact S|].
    intros y [a' [b' [H1 H2]]] Sy. destruct (U _ _ H1) as [-> ->]. apply in_app_or in H2. destruct H2 as [H2 | [-> | H2]]; [|left; reflexivity|destruct (N y H2 Sy)].
    right. exists a, (b ++ x :: l2)%list. split; [|exact H2]. exists p. rewrite <- app_assoc in C. split; [|exact C]. apply (child_has_parent h F). rewrite C. apply in_or_app. right. left. reflexivity.
  - intros y [a' [b' [H1 H2]]]. destruct (U _ _ H1) as [-> ->]. apply N. exact H2.
Qed.
Lemma tag_none c n y : known c -> compound_tag c = Some n -> sc c y -> In y (children h y) \/ True -> lower (name_of h y) = n.
Proof.
  intros [_ [T _]] Q [_ S] _. destruct c as [i ss]. unfold compound_tag in Q. cbn [simples] in *.
  assert (In (STag n) ss).
  { clear S T. induction ss as [|s ss IH]; [discriminate Q|]. simpl in Q. destruct (tag_of s) as [m|] eqn:E; [|right; apply IH; exact Q].
    left. destruct s as [k|k|k| |k o|k o|k o]; try discriminate E. destruct k; [discriminate E|]. cbn [tag_of] in E. congruence. }
  specialize (S _ H). cbn [sat_simple] in S. rewrite forallb_forall in T. specialize (T _ H). cbn [tidy_simple] in T. apply str_eqb_iff in T. rewrite T in S. exact S.
Qed.
Lemma previous_spec x c st r st' : known c -> is_element h x -> prev_exact st -> previous_matching h over level deeper x c st = MOk r st' ->
  anc_cache st' = anc_cache st /\ prev_exact st' /\ near_sib c x r.
Proof.
  intros K Ex S E. unfold previous_matching in E. destruct (sib_cases h F FN x Ex) as [[P N] | [p [l1 [l2 [P [C [ND [SL U]]]]]]]].
  - unfold parent in P. rewrite P in E. injection E as <- <-. split; [reflexivity|]. split; [exact S|]. intros y [a [b [H _]]]. destruct (N _ _ H).
  - pose proof P as P'. unfold parent in P'. rewrite P' in E. unfold bind at 1 in E. destruct (tick over st) as [[] s1|e] eqn:T; [|discriminate E]. apply keeps_tick in T.
    assert (S1 : prev_exact s1) by (intros q i d w; rewrite (caches_prev _ _ T); apply S).
    destruct (match compound_tag c with Some n => negb (in_strs n (child_names h p)) | None => false end) eqn:Tg.
    + injection E as <- <-. split; [exact (caches_anc _ _ T)|]. split; [exact S1|]. intros y [a [b [H1 H2]]] Sy. destruct (U _ _ H1) as [-> ->].
      destruct (compound_tag c) as [n|] eqn:Q; [|discriminate Tg]. apply negb_true_iff in Tg. assert (in_strs n (child_names h p) = true); [|congruence].
      apply in_strs_In. unfold child_names. apply in_map_iff. exists y. split; [apply (tag_none c n y K Q Sy); right; exact I|]. unfold element_children. apply filter_In. split.
      * change (kidl h p) with (children h p). rewrite C. apply in_or_app. left. exact H2.
      * apply elem_spec. apply Sy.
    + destruct (lookup (p, cid c, level) (prev_cache s1)) as [d|] eqn:L.
      * injection E as <- <-. split; [exact (caches_anc _ _ T)|]. split; [exact S1|]. specialize (S1 _ _ _ _ L _ _ _ C). rewrite (proj1 K) in S1. eapply last_sat_near; eauto.
      * unfold bind in E. destruct (sib_loop h over deeper c (kidl h p) None s1) as [d s2|e] eqn:R; [|discriminate E]. injection E as <- <-. cbn [anc_cache].
        destruct (sib_loop_spec c K _ _ _ _ _ R) as [C2 L2]. split; [rewrite (caches_anc _ _ C2); exact (caches_anc _ _ T)|].
        pose proof (child_once h F p) as NDp. specialize (L2 NDp).
        split; [|eapply last_sat_near; eauto; apply (L2 l1 x l2 None C)].
        intros q i d' w Q a y b Qc. cbn [prev_cache lookup] in Q. destruct (key_eqb (q, i, d') (p, cid c, level)) eqn:Kq.
        -- apply key_eqb_eq in Kq. injection Kq as -> -> ->. injection Q as <-. rewrite (proj1 K). apply (L2 a y b None Qc).
        -- rewrite (caches_prev _ _ C2) in Q. exact (S1 _ _ _ _ Q _ _ _ Qc).
Qed.

(* ---- chains ---- *)
Fixpoint left_sat (x : nat) (cb : option comb) (rest : list (option comb * compound)) : Prop :=
  match rest with
  | [] => True
  | (cb', c) :: rest' => exists y, match cb with Some r => related h r y x | None => False end /\ sc c y /\ left_sat y cb' rest'
  end.
(* every combinator of the reversed list is there, except the last *)
Fixpoint linked (cb : option comb) (rest : list (option comb * compound)) : Prop :=
  match rest with [] => cb = None | (cb', _) :: t => cb <> None /\ linked cb' t end.
Definition parts_ok (rest : list (option comb * compound)) : Prop := forall p, In p rest -> known (snd p) /\ anchored (snd p) = true.
Definition caches_sound (s : qstate) : Prop := anc_sound s /\ prev_exact s.
Lemma parts_tl p l : parts_ok (p :: l) -> parts_ok l. Proof. intros H q Hq. apply H. right. exact Hq. Qed.

Lemma left_sound rest : forall x cb st b st', linked cb rest -> parts_ok rest -> is_element h x -> caches_sound st ->
  match_left h over level deeper x cb rest st = MOk b st' -> caches_sound st' /\ (b = true -> left_sat x cb rest).
Proof.
  induction rest as [|[cb' c] rest IH]; intros x cb st b st' LK PO Ex CS E; cbn [match_left] in E.
  - injection E as <- <-. split; [exact CS|]. intros _. exact I.
  - cbn [linked] in LK. destruct LK as [Ncb LK]. pose proof (parts_tl _ _ PO) as PO'. destruct (PO _ (or_introl eq_refl)) as [K A]. cbn [snd] in K, A. destruct CS as [CS1 CS2].
    cbn [left_sat]. destruct cb as [[]|]; [| | | |contradiction].
    + unfold bind in E. destruct (closest h over level deeper x c st) as [r s1|e] eqn:Cl; [|discriminate E]. destruct (closest_sound _ _ _ _ _ K A CS1 Cl) as [S1 [S2 S3]].
      assert (CS' : caches_sound s1) by (split; [exact S1|intros p i d w; rewrite S2; apply CS2]).
      destruct r as [z|]; [|injection E as <- <-; split; [exact CS'|intros Q; discriminate Q]]. destruct (S3 z eq_refl) as [q [Q1 [Q2 Q3]]].
      destruct (IH z cb' s1 b st' LK PO' (proj1 Q3) CS' E) as [H1 H2]. split; [exact H1|]. intros Hb. exists z. split; [exists q; auto|]. split; [exact Q3|auto].
    + change (par (cell_at h x)) with (parent h x) in E. destruct (parent h x) as [p|] eqn:P; [|injection E as <- <-; split; [split; assumption|intros Q; discriminate Q]].
      unfold bind in E. destruct (matches_compound h over deeper p c st) as [b1 s1|e] eqn:Mc; [|discriminate E].
      pose proof (compound_keeps h over deeper deeper_keeps _ _ (proj2 K) _ _ _ Mc) as C2.
      pose proof (compound_exact h FF FN DB over deeper deeper_exact _ _ (proj2 K) (or_intror A) _ _ _ Mc) as X2.
      assert (CS' : caches_sound s1) by (split; [intros i d n w; rewrite (caches_anc _ _ C2); apply CS1|intros q i d w; rewrite (caches_prev _ _ C2); apply CS2]).
      destruct b1; [|injection E as <- <-; split; [exact CS'|intros Q; discriminate Q]]. assert (Sp : sc c p) by (apply X2; reflexivity).
      destruct (IH p cb' s1 b st' LK PO' (proj1 Sp) CS' E) as [H1 H2]. split; [exact H1|]. intros Hb. exists p. split; [exact P|]. split; [exact Sp|auto].
    + destruct (match par (cell_at h x) with None => None | Some p => previous_sibling h p x end) as [y|] eqn:P; [|injection E as <- <-; split; [split; assumption|intros Q; discriminate Q]].
      apply (prev_sib_spec h F FN x y Ex) in P. destruct P as [Ey Ry].
      unfold bind in E. destruct (tick over st) as [[] s0|e] eqn:T; [|discriminate E]. apply keeps_tick in T. destruct (matches_compound h over deeper y c s0) as [b1 s1|e] eqn:Mc; [|discriminate E].
      pose proof (compound_keeps h over deeper deeper_keeps _ _ (proj2 K) _ _ _ Mc) as C2. rewrite T in C2.
      pose proof (compound_exact h FF FN DB over deeper deeper_exact _ _ (proj2 K) (or_introl Ey) _ _ _ Mc) as X2.
      assert (CS' : caches_sound s1) by (split; [intros i d n w; rewrite (caches_anc _ _ C2); apply CS1|intros q i d w; rewrite (caches_prev _ _ C2); apply CS2]).
      destruct b1; [|injection E as <- <-; split; [exact CS'|intros Q; discriminate Q]].
      destruct (IH y cb' s1 b st' LK PO' Ey CS' E) as [H1 H2]. split; [exact H1|]. intros Hb. exists y. split; [exact Ry|]. split; [apply X2; reflexivity|auto].
    + unfold bind in E. destruct (previous_matching h over level deeper x c st) as [r s1|e] eqn:Pm; [|discriminate E].
      destruct (previous_spec _ _ _ _ _ K Ex CS2 Pm) as [S1 [S2 S3]]. assert (CS' : caches_sound s1) by (split; [intros i d n w; rewrite S1; apply CS1|exact S2]).
      destruct r as [z|]; [|injection E as <- <-; split; [exact CS'|intros Q; discriminate Q]]. destruct S3 as [R1 [R2 _]].
      destruct (IH z cb' s1 b st' LK PO' (proj1 R2) CS' E) as [H1 H2]. split; [exact H1|]. intros Hb. exists z. split; [exact R1|]. split; [exact R2|auto].
Qed.

(* the bridge to the specification *)
Lemma ends_at_last s l cb c ok x : ends_at h s (l ++ [(cb, c)]) ok x <-> s c x /\ match cb with None => True | Some cb => exists y, related h cb y x /\ ends_at h s l ok y end.
Proof. revert ok x. induction l as [|[cb0 c0] l IH]; intros ok x; cbn [app ends_at]; [reflexivity|]. apply IH. Qed.
Lemma sat_rev l : forall cb c x, linked cb l -> (sat_complex h (rev ((cb, c) :: l)) x <-> sc c x /\ left_sat x cb l).
Proof.
  unfold sat_complex. induction l as [|[cb' c'] l IH]; intros cb c x LK; cbn [rev].
  - cbn [linked] in LK. subst cb. cbn [app ends_at left_sat]. tauto.
  - cbn [linked] in LK. destruct LK as [N LK]. destruct cb as [r|]; [|contradiction]. rewrite ends_at_last. cbn [left_sat]. cbn [rev] in IH.
    split; (intros [H1 [y [H2 H3]]]; split; [exact H1|]; exists y; split; [exact H2|]); apply (IH cb' c' y LK); exact H3.
Qed.
Lemma wf_linked c cb last rest : well_formed c = true -> rev c = (cb, last) :: rest -> linked cb rest.
Proof.
  intros W R. assert (E : c = rev ((cb, last) :: rest)) by (rewrite <- R, rev_involutive; reflexivity). clear R. subst c.
  revert cb last W. induction rest as [|[cb' c'] rest IH]; intros cb last W; cbn [rev app] in W.
  - cbn in W. destruct cb; [discriminate W|reflexivity].
  - cbn [linked]. cbn [rev] in IH. rewrite <- app_assoc in W. cbn [app] in W.
    assert (W1 : forall a p q, well_formed (a ++ [p; q]) = true -> well_formed (a ++ [p]) = true /\ fst q <> None).
    { intros a p q H. destruct a as [|[b0 c0] a]; cbn [app well_formed] in *.
      - destruct p as [[]]; [discriminate H|]. cbn [forallb] in *. split; [reflexivity|]. destruct (fst q); [discriminate|discriminate H].
      - destruct b0; [discriminate H|]. rewrite forallb_app in H. cbn [forallb] in H. rewrite forallb_app. cbn [forallb]. rewrite !andb_true_iff in *. split; [tauto|]. destruct (fst q); [discriminate|]. destruct H as [_ [_ [H _]]]. discriminate H. }
    destruct (W1 _ _ _ W) as [W2 W3]. split; [exact W3|apply (IH cb' c'); exact W2].
Qed.

Lemma complex_sound c x st b st' : well_formed c = true -> (forall p, In p c -> known (snd p)) -> (forall p, In p (removelast c) -> anchored (snd p) = true) ->
  is_element h x -> caches_sound st -> matches_complex h over level deeper x c st = MOk b st' -> caches_sound st' /\ (b = true -> sat_complex h c x).
Proof.
  intros W K A Ex CS E. unfold matches_complex in E. destruct (rev c) as [|[cb last] rest] eqn:R; [injection E as <- <-; split; [exact CS|intros Q; discriminate Q]|].
  pose proof (wf_linked _ _ _ _ W R) as LK.
  assert (Ec : c = (rev rest ++ [(cb, last)])%list) by (rewrite <- (rev_involutive c), R; reflexivity).
  assert (PO : parts_ok rest).
  { intros p Hp. rewrite Ec in A, K. rewrite removelast_app in A by discriminate. cbn [removelast] in A. rewrite app_nil_r in A. split.
    - apply K. apply in_or_app. left. apply -> in_rev. exact Hp.
    - apply A. apply -> in_rev. exact Hp. }
  assert (Kl : known last) by (apply (K (cb, last)); rewrite Ec; apply in_or_app; right; left; reflexivity).
  unfold bind in E. destruct (matches_compound h over deeper x last st) as [b1 s1|e] eqn:Mc; [|discriminate E].
  pose proof (compound_keeps h over deeper deeper_keeps _ _ (proj2 Kl) _ _ _ Mc) as C2.
  pose proof (compound_exact h FF FN DB over deeper deeper_exact _ _ (proj2 Kl) (or_introl Ex) _ _ _ Mc) as X2.
  destruct CS as [CS1 CS2]. assert (CS' : caches_sound s1) by (split; [intros i d n w; rewrite (caches_anc _ _ C2); apply CS1|intros q i d w; rewrite (caches_prev _ _ C2); apply CS2]).
  destruct b1; [|injection E as <- <-; split; [exact CS'|intros Q; discriminate Q]].
  destruct (left_sound rest x cb s1 b st' LK PO Ex CS' E) as [H1 H2]. split; [exact H1|]. intros Hb. rewrite Ec. change (rev rest ++ [(cb, last)])%list with (rev ((cb, last) :: rest)).
  apply sat_rev; [exact LK|]. split; [apply X2; reflexivity|auto].
Qed.
End S.
