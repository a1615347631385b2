(* The model of the sanitizer never runs out of fuel. *)
From Coq Require Import Lia.
From Verif Require Import Str StrFacts SerializerModel SerRawProofs UrlModel CssModel SanModel SanFacts.
Open Scope N_scope.

Lemma weights_app a b : weights (a ++ b) = (weights a + weights b)%nat.
Proof. induction a as [|x a IH]; cbn [weights fold_right app]; [reflexivity|]. unfold weights in *. lia. Qed.
Lemma weight_set_info i n : weight (set_info i n) = weight n.
Proof. destruct n; reflexivity. Qed.
Lemma weights_hoisted k ch tc : weights (hoisted k ch tc) = (weights ch + match tc with Some l => weights l | None => 0 end)%nat.
Proof.
  unfold hoisted. rewrite map_app, weights_app.
  assert (H : forall l, weights (map (mark_start k) l) = weights l).
  { induction l as [|x l IH]; cbn [weights fold_right map]; [reflexivity|]. unfold mark_start at 1. rewrite weight_set_info. unfold weights in *. lia. }
  rewrite !H. destruct tc; reflexivity.
Qed.
Lemma weights_opt_text k t : (weights (opt_text k t) <= 1)%nat.
Proof. destruct t as [[|c r]|]; cbn; lia. Qed.
Lemma weight_El i name ns attrs ch tc : weight (El i name ns attrs ch tc) = (4 + weights ch + match tc with Some l => weights l | None => 0 end)%nat.
Proof. reflexivity. Qed.
Lemma weight_Fr i name ch : weight (Fr i name ch) = (2 + weights ch)%nat.
Proof. reflexivity. Qed.

Section Fuel.
Variable py : urllib.
Variable p : policy.

Lemma bind_fuel {A B} (x : res A) (f : A -> res B) : x <> OutOfFuel -> (forall a fs, x = Ok a fs -> f a <> OutOfFuel) -> bind x f <> OutOfFuel.
Proof.
  intros H1 H2. destruct x as [a fs| |]; cbn [bind]; [|discriminate|contradiction H1; reflexivity]. specialize (H2 a fs eq_refl). destruct (f a); congruence || discriminate.
Qed.

Lemma edit_attrs_fuel i name attrs : edit_attrs py p i name attrs <> OutOfFuel.
Proof.
  unfold edit_attrs. apply bind_fuel.
  { unfold allowlist_attrs. match goal with |- (if ?b then _ else _) <> _ => destruct b end; [discriminate|].
    destruct (allowlist_loop _ _ _ _ _) as [[o c] f]. discriminate. }
  intros a fs _. apply bind_fuel.
  { unfold drop_url_attrs. destruct (url_loop _ _ _ _ _ _ _ _) as [[[? ?] ?]|]; discriminate. }
  intros b gs _. destruct (allowed_css p); [discriminate|].
  unfold allow_style_attrs. destruct (List.find _ _) as [[k [v|]]|]; try discriminate. destruct (sanitize_inline_style _ _ _ _ _); try discriminate.
  destruct (_ && _); discriminate.
Qed.

Lemma decide_fuel idx i name ns attrs ch tc r : decide p idx i name ns attrs ch tc = Some r -> r <> OutOfFuel.
Proof.
  unfold decide. destruct (in_strs _ (allowed_tags p)); [discriminate|]. destruct (in_strs _ _); intros H; injection H as <-; [discriminate|].
  destruct (disallowed_tag_handling p); try discriminate; [destruct (hoisted _ _ _); discriminate|destruct (escape_node _ _ _ _ _ _ _); discriminate].
Qed.
Lemma run_fuel ts : forall idx nf n, run py p idx ts nf n <> OutOfFuel.
Proof.
  induction ts as [|t ts IH]; intros idx nf n; [discriminate|].
  destruct t, n as [i name ns attrs ch tc | i d | i d | i d | i d | i name ch]; cbn [run]; try apply IH.
  - destruct nf; [discriminate|apply IH].
  - destruct (decide p idx i name ns attrs ch tc) eqn:E; [exact (decide_fuel _ _ _ _ _ _ _ _ E)|apply IH].
  - destruct (strip_attrs i attrs) as [a fs]. cbn [bind].
    match goal with |- context [run py p ?x ts nf ?m] => pose proof (IH x nf m) as Ha; destruct (run py p x ts nf m) end; congruence || discriminate.
  - destruct (str_eqb _ _); [apply IH|]. cbn [bind].
    match goal with |- context [run py p ?x ts nf ?m] => pose proof (IH x nf m) as Ha; destruct (run py p x ts nf m) end; congruence || discriminate.
  - pose proof (edit_attrs_fuel i name attrs) as He. destruct (edit_attrs py p i name attrs) as [a fs| |]; cbn [bind]; [|discriminate|congruence].
    match goal with |- context [run py p ?x ts nf ?m] => pose proof (IH x nf m) as Ha; destruct (run py p x ts nf m) end; congruence || discriminate.
  - destruct (disallowed_tag_handling p); discriminate.
  - destruct (disallowed_tag_handling p); discriminate.
  - discriminate.
Qed.

Definition same_shape (n n' : node) : Prop :=
  match n, n' with
  | El i a b _ c d, El i' a' b' _ c' d' => i = i' /\ a = a' /\ b = b' /\ c = c' /\ d = d'
  | Tx i _, Tx i' _ => i = i'
  | _, _ => n = n'
  end.
Lemma same_shape_refl n : same_shape n n.
Proof. destruct n; cbn; auto. Qed.
Lemma decide_shape idx i name ns attrs ch tc o fs : decide p idx i name ns attrs ch tc = Some (Ok o fs) ->
  o = Gone \/ exists l, o = Repl l /\ (weights l < weight (El i name ns attrs ch tc))%nat.
Proof.
  unfold decide. destruct (in_strs _ (allowed_tags p)); [discriminate|]. destruct (in_strs _ _); intros H; [injection H as <- _; auto|].
  rewrite weight_El.
  destruct (disallowed_tag_handling p).
  - destruct (hoisted idx ch tc) as [|a l] eqn:E; injection H as <- _; [auto|]. right. eexists. split; [reflexivity|]. rewrite <- E, weights_hoisted. lia.
  - destruct (escape_node idx i name ns attrs ch tc) as [l|] eqn:E; [|discriminate H]. injection H as <- _. right. eexists. split; [reflexivity|].
    unfold escape_node in E. destruct (match raw_start i with Some s => _ | None => _ end) as [s|]; [|discriminate E].
    destruct (match raw_end i with Some s => _ | None => _ end) as [e|]; [|discriminate E]. injection E as <-.
    rewrite !weights_app, weights_hoisted. pose proof (weights_opt_text idx s). pose proof (weights_opt_text idx e). lia.
  - injection H as <- _. auto.
Qed.
Lemma run_shape ts : forall idx nf n o fs, run py p idx ts nf n = Ok o fs ->
  match o with
  | Stay n' => same_shape n n'
  | Repl l => (weights l < weight n)%nat
  | EscComment t => (exists i d, n = Cm i d \/ n = Pi i d) /\ (exists i d, t = Tx i d)
  | _ => True
  end.
Proof.
  induction ts as [|t ts IH]; intros idx nf n o fs H.
  { cbn [run] in H. injection H as <- _. apply same_shape_refl. }
  destruct t, n as [i name ns attrs ch tc | i d | i d | i d | i d | i name ch]; cbn [run] in H; try exact (IH _ _ _ _ _ H).
  - destruct nf; [|exact (IH _ _ _ _ _ H)]. match type of H with context [if ?b then GoneAll else Gone] => destruct b end; injection H as <- _; exact I.
  - destruct (decide p idx i name ns attrs ch tc) as [r|] eqn:E; [|exact (IH _ _ _ _ _ H)]. subst r.
    apply decide_shape in E. destruct E as [-> | (l & -> & E)]; [exact I|exact E].
  - destruct (strip_attrs i attrs) as [a gs]. apply bind_Ok in H. destruct H as (? & ? & ? & _ & H & _). apply IH in H. (destruct o as [[]| | | |]; first [exact H | discriminate H | destruct H as ((? & ? & [E|E]) & _); discriminate E]).
  - destruct (str_eqb _ _); [exact (IH _ _ _ _ _ H)|]. apply bind_Ok in H. destruct H as (? & ? & ? & _ & H & _). apply IH in H. (destruct o as [[]| | | |]; first [exact H | discriminate H | destruct H as ((? & ? & [E|E]) & _); discriminate E]).
  - apply bind_Ok in H. destruct H as (a & ? & ? & _ & H & _). apply IH in H. (destruct o as [[]| | | |]; first [exact H | discriminate H | destruct H as ((? & ? & [E|E]) & _); discriminate E]).
  - apply IH in H. (destruct o as [[]| | | |]; first [exact H | discriminate H | destruct H as ((? & ? & [E|E]) & _); discriminate E]).
  - destruct (disallowed_tag_handling p); injection H as <- _; try exact I; (split; [exists i, d; auto|eexists; eexists; reflexivity]).
  - destruct (disallowed_tag_handling p); injection H as <- _; try exact I; (split; [exists i, d; auto|eexists; eexists; reflexivity]).
  - injection H as <- _. exact I.
Qed.

Lemma insert_first_weight f l l' w : (forall n n', f n = Some n' -> weight n' = (weight n + w)%nat) -> insert_first f l = Some l' -> weights l' = (weights l + w)%nat.
Proof.
  intros Hf. revert l'. induction l as [|n l IH]; intros l' H; cbn [insert_first] in H; [discriminate H|].
  destruct (f n) as [n'|] eqn:E.
  - injection H as <-. apply Hf in E. cbn [weights fold_right] in *. lia.
  - destruct (insert_first f l) as [l1|]; [|discriminate H]. injection H as <-. specialize (IH l1 eq_refl). cbn [weights fold_right] in *. unfold weights in *. lia.
Qed.
Lemma insert_html_weight t n n' : insert_html t n = Some n' -> weight n' = (weight n + weight t)%nat.
Proof.
  destruct n as [i name ns attrs ch tc | | | | | ]; try discriminate. cbn [insert_html]. destruct (str_eqb _ _); [|discriminate].
  destruct (insert_first (insert_into_body t) ch) as [ch'|] eqn:E; [|discriminate]. intros H. injection H as <-. rewrite !weight_El.
  apply insert_first_weight with (w := weight t) in E; [lia|]. clear. intros n n' H.
  destruct n as [i name ns attrs ch tc | | | | | ]; try discriminate. cbn [insert_into_body] in H. destruct (str_eqb _ _); [|discriminate]. injection H as <-.
  rewrite !weight_El, weights_app. rewrite <- (firstn_skipn (icount i) ch) at 3. rewrite weights_app. cbn [weights fold_right]. unfold weights. lia.
Qed.

Lemma walk_fuel k : forall doc ctx done pending, (weights pending < k)%nat -> walk py p k doc ctx done pending <> OutOfFuel.
Proof.
  induction k as [|k IH]; intros doc ctx done pending Hk; [lia|].
  destruct pending as [|n rest]; cbn [walk]; [discriminate|]. cbn [weights fold_right] in Hk. change (fold_right _ _ rest) with (weights rest) in Hk.
  apply bind_fuel; [apply run_fuel|]. intros o fs R. apply run_shape in R. destruct o as [n' | | | l | t].
  - destruct n' as [i name ns attrs ch tc | i d | i d | i d | i d | i name ch];
      try (apply IH; destruct n; cbn [same_shape] in R; (discriminate R || (cbn [weight] in Hk; lia))).
    + destruct n as [i0 name0 ns0 attrs0 ch0 tc0 | | | | |]; cbn [same_shape] in R; try discriminate R. destruct R as (-> & -> & -> & -> & ->).
      rewrite weight_El in Hk. apply bind_fuel; [apply IH; lia|]. intros ch' f1 _. apply bind_fuel.
      * destruct tc as [l|]; [|discriminate]. apply bind_fuel; [apply IH; lia|discriminate].
      * intros tc' f2 _. apply IH. lia.
    + destruct n; cbn [same_shape] in R; try discriminate R. injection R as -> -> ->. rewrite weight_Fr in Hk.
      apply bind_fuel; [apply IH; lia|]. intros ch' f1 _. apply IH. lia.
  - apply IH. destruct n; cbn [weight] in Hk; lia.
  - apply IH. cbn [weights fold_right]. destruct n; cbn [weight] in Hk; lia.
  - apply IH. rewrite weights_app. lia.
  - destruct R as ((i & d & Hn) & (ti & td & ->)). assert (W : weight n = 2%nat) by (destruct Hn as [-> | ->]; reflexivity). rewrite W in Hk.
    destruct doc.
    + destruct (insert_first (insert_html _) done); [apply IH; lia|].
      destruct (insert_first (insert_html _) rest) as [rest'|] eqn:E.
      * apply IH. apply insert_first_weight with (w := 1%nat) in E; [lia|]. intros a b Hab. apply insert_html_weight in Hab. exact Hab.
      * apply IH. change (weights _) with (S (weights rest)). lia.
    + apply IH. change (weights _) with (S (weights rest)). lia.
Qed.

Lemma harden_children_fuel name ch : In name [u "script"; u "style"] -> harden_children name ch <> OutOfFuel.
Proof.
  intros Hn. unfold harden_children. apply bind_fuel; [discriminate|]. intros _ _ _. destruct (filter is_text ch) as [|first more]; [discriminate|].
  destruct (neutralize_total name (List.concat (map text_data (first :: more)))) as (o & c & E & _).
  { destruct Hn as [<-|[<-|[]]]; reflexivity. }
  rewrite E. apply bind_fuel; [destruct c; discriminate|]. intros kept _ _. destruct (_ && _); discriminate.
Qed.
Lemma mapM_fuel {A B} (f : A -> res B) l : Forall (fun a => f a <> OutOfFuel) l -> mapM f l <> OutOfFuel.
Proof.
  induction 1 as [|a l Ha _ IH]; [discriminate|]. change (mapM f (a :: l)) with (bind (f a) (fun b => bind (mapM f l) (fun bs => Ok (b :: bs) []))).
  apply bind_fuel; [exact Ha|]. intros b _ _. apply bind_fuel; [exact IH|discriminate].
Qed.
Lemma harden_fuel n : harden n <> OutOfFuel.
Proof.
  induction n as [i name ns attrs ch tc Hch Htc | | | | | i name ch Hch] using node_ind2; cbn [harden]; try discriminate.
  - destruct (in_strs (lower name) [u "script"; u "style"]) eqn:E.
    + destruct ch; [discriminate|]. apply bind_fuel; [apply harden_children_fuel; apply in_strs_In; exact E|discriminate].
    + apply bind_fuel.
      * destruct tc as [l|]; [|discriminate]. apply bind_fuel; [apply mapM_fuel; apply Htc; reflexivity|discriminate].
      * intros tc' _ _. apply bind_fuel; [apply mapM_fuel; exact Hch|discriminate].
  - apply bind_fuel; [apply mapM_fuel; exact Hch|discriminate].
Qed.
Theorem apply_fuel n : apply_policy_to_root py p n <> OutOfFuel.
Proof.
  assert (A : forall doc ch, apply_children py p doc ch <> OutOfFuel).
  { intros doc ch. unfold apply_children. apply bind_fuel; [apply walk_fuel; lia|]. intros out _ _. destruct (existsb _ _); [|discriminate].
    apply mapM_fuel. apply Forall_forall. intros x _. apply harden_fuel. }
  destruct n; unfold apply_policy_to_root; (apply bind_fuel; [apply A|]); intros ch' _ _; try discriminate; destruct ch' as [|a [|b l]]; discriminate.
Qed.
End Fuel.
