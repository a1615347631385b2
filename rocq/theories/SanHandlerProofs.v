(* C26: the three modes of unsafe_handling. *)
From Coq Require Import Lia ZifyBool ZifyN Permutation Sorted.
From Verif Require Import Str StrFacts UrlModel CssModel SanModel SanFacts SanFuel SanHandlerModel.
Open Scope N_scope.

Lemma mode_irrelevant py p m n : apply_policy_to_root py (with_mode m p) n = apply_policy_to_root py p n.
Proof. destruct p. reflexivity. Qed.

Definition by_key (k : N * N) (e : parse_error) : bool := (fst (sort_key e) =? fst k) && (snd (sort_key e) =? snd k).
Definition le_err (a b : parse_error) : Prop := key_leb (sort_key a) (sort_key b) = true.
Lemma insert_perm e l : Permutation (insert_err e l) (e :: l).
Proof. induction l as [|x l IH]; [reflexivity|]. cbn [insert_err]. destruct (key_leb _ _); [reflexivity|]. rewrite IH. apply perm_swap. Qed.
Lemma sort_perm l : Permutation (sort_errs l) l.
Proof. induction l as [|e l IH]; [reflexivity|]. cbn [sort_errs fold_right]. rewrite insert_perm. apply perm_skip. exact IH. Qed.
Lemma key_total a b : key_leb a b = false -> key_leb b a = true.
Proof. unfold key_leb. destruct a, b. cbn [fst snd]. lia. Qed.
Lemma insert_sorted e l : Sorted le_err l -> Sorted le_err (insert_err e l).
Proof.
  induction l as [|x l IH]; intros H; [repeat constructor|]. cbn [insert_err]. destruct (key_leb (sort_key e) (sort_key x)) eqn:E.
  - constructor; [exact H|]. constructor. exact E.
  - inversion H as [|? ? H1 H2]; subst. constructor; [exact (IH H1)|]. destruct l as [|y l]; cbn [insert_err].
    + constructor. apply key_total. exact E.
    + destruct (key_leb (sort_key e) (sort_key y)); constructor; [apply key_total; exact E|]. inversion H2; subst. assumption.
Qed.
Lemma sort_sorted l : Sorted le_err (sort_errs l).
Proof. induction l as [|e l IH]; [constructor|]. apply insert_sorted. exact IH. Qed.
Lemma insert_stable k e l : filter (by_key k) (insert_err e l) = (if by_key k e then e :: filter (by_key k) l else filter (by_key k) l).
Proof.
  induction l as [|x l IH]; cbn [insert_err filter]; [destruct (by_key k e); reflexivity|]. destruct (key_leb (sort_key e) (sort_key x)) eqn:E; cbn [filter].
  - destruct (by_key k e); destruct (by_key k x); reflexivity.
  - rewrite IH. destruct (by_key k e) eqn:Be; destruct (by_key k x) eqn:Bx; try reflexivity. exfalso. unfold by_key, key_leb in *. lia.
Qed.
Lemma sort_stable k l : filter (by_key k) (sort_errs l) = filter (by_key k) l.
Proof. induction l as [|e l IH]; [reflexivity|]. cbn [sort_errs fold_right filter]. fold (sort_errs l). rewrite insert_stable, IH. reflexivity. Qed.

Lemma handle_collect h fs : exists h', handle_all MCollect h fs = inl h' /\
  (forall l, h_sink h = Some l -> h_sink h' = Some (l ++ map error_of fs)%list) /\
  (forall l, h_sink h = None -> h_errors h = Some l -> h_sink h' = None /\ h_errors h' = Some (l ++ map error_of fs)%list).
Proof.
  revert h. induction fs as [|f fs IH]; intros h; cbn [handle_all map].
  - exists h. rewrite !app_nil_r || idtac. split; [reflexivity|]. split; intros l; rewrite app_nil_r; auto.
  - cbn [handle]. destruct (h_sink h) as [s|] eqn:Es.
    + destruct (IH (Handler (Some (s ++ [error_of f])%list) (h_errors h))) as (h' & E & A & B). exists h'. split; [exact E|]. split; [|discriminate].
      intros l Hl. assert (s = l) as -> by congruence. specialize (A _ eq_refl). rewrite <- app_assoc in A. exact A.
    + destruct (IH (Handler None (Some (match h_errors h with Some l => l | None => [] end ++ [error_of f])%list))) as (h' & E & A & B). exists h'. split; [exact E|]. split; [discriminate|].
      intros l _ Hl. specialize (B _ eq_refl eq_refl). rewrite Hl, <- app_assoc in B. exact B.
Qed.
Lemma security_error f : is_security (error_of f) = true.
Proof. reflexivity. Qed.
Lemma filter_all {A} (f : A -> bool) l : (forall x, In x l -> f x = true) -> filter f l = l.
Proof. induction l as [|x l IH]; intros H; [reflexivity|]. cbn [filter]. rewrite (H x (or_introl eq_refl)). f_equal. apply IH. intros y Hy. apply H. right. exact Hy. Qed.
Lemma filter_none {A} (f : A -> bool) l : (forall x, In x l -> f x = false) -> filter f l = [].
Proof. induction l as [|x l IH]; intros H; [reflexivity|]. cbn [filter]. rewrite (H x (or_introl eq_refl)). apply IH. intros y Hy. apply H. right. exact Hy. Qed.
Lemma filter_errors fs : filter is_security (map error_of fs) = map error_of fs.
Proof. apply filter_all. intros x Hx. apply in_map_iff in Hx. destruct Hx as (f & <- & _). apply security_error. Qed.

(* Collect mode: the tree, and the collected errors are exactly the findings of the run, whatever was in the handler before. *)
Lemma collect_spec py p h n out fs : apply_policy_to_root py p n = Ok out fs ->
  exists h', sanitize_dom py (with_mode MCollect p) h n = Returned out h' /\ collected h' = sort_errs (map error_of fs) /\
             (forall l, h_sink h = Some l -> exists l', h_sink h' = Some l' /\ filter (fun e => negb (is_security e)) l' = filter (fun e => negb (is_security e)) l).
Proof.
  intros H. unfold sanitize_dom. rewrite mode_irrelevant, H. change (unsafe_handling (with_mode MCollect p)) with MCollect. cbv iota zeta.
  destruct (handle_collect (reset MCollect h) fs) as (h' & E & A & B). rewrite E. exists h'. split; [reflexivity|].
  unfold reset in A, B. destruct (h_sink h) as [l|] eqn:Es; cbn [h_sink h_errors] in A, B.
  - specialize (A _ eq_refl). split.
    + unfold collected. rewrite A. rewrite filter_app, filter_errors. rewrite (filter_none is_security); [reflexivity|].
      intros x Hx. apply filter_In in Hx. destruct Hx as [_ Hx]. apply Bool.negb_true_iff in Hx. exact Hx.
    + intros l0 Hl. assert (l = l0) as -> by congruence. eexists. split; [exact A|]. rewrite filter_app.
      rewrite (filter_none _ (map error_of fs)) by (intros x Hx; apply in_map_iff in Hx; destruct Hx as (f & <- & _); reflexivity). rewrite app_nil_r.
      apply filter_all. intros x Hx. apply filter_In in Hx. apply Hx.
  - destruct (B _ eq_refl eq_refl) as [B1 B2]. split; [|discriminate]. unfold collected. rewrite B1, B2. reflexivity.
Qed.
Lemma strip_spec py p h n out fs : apply_policy_to_root py p n = Ok out fs -> sanitize_dom py (with_mode MStrip p) h n = Returned out h.
Proof.
  intros H. unfold sanitize_dom. rewrite mode_irrelevant, H. change (unsafe_handling (with_mode MStrip p)) with MStrip. cbv iota zeta.
  assert (E : handle_all MStrip h fs = inl h) by (clear H; induction fs; [reflexivity|exact IHfs]). rewrite E. reflexivity.
Qed.
Lemma raise_spec py p h n out fs : apply_policy_to_root py p n = Ok out fs ->
  sanitize_dom py (with_mode MRaise p) h n = match fs with [] => Returned out h | f :: _ => Unsafe (f_msg f) end.
Proof.
  intros H. unfold sanitize_dom. rewrite mode_irrelevant, H. change (unsafe_handling (with_mode MRaise p)) with MRaise. cbv iota zeta.
  destruct fs; reflexivity.
Qed.
Lemma modes_agree py p h n : forall m m', sanitize_dom py (with_mode m p) h n = OtherError -> sanitize_dom py (with_mode m' p) h n = OtherError.
Proof.
  intros m m'. unfold sanitize_dom. rewrite !mode_irrelevant. destruct (apply_policy_to_root py p n) as [out fs| |]; try reflexivity; try discriminate.
  destruct (handle_all _ _ fs); discriminate.
Qed.
