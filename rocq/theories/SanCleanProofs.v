(* C24 (idempotence), C25 (clean trees). *)
From Coq Require Import Lia.
From Verif Require Import Str StrFacts SerializerModel UrlModel CssModel CssFinal SanModel SanSpec SanFacts SanFuel SanProofs SanAttrProofs SanTreeProofs SanDropProofs SanContentProofs.
Open Scope N_scope.

Section Clean.
Variable py : urllib.
Variable p : policy.

(* ---- stages that change nothing ---- *)
Definition stable_url (name : str) (a : attr_list) : Prop := forall k v, In (k, v) a ->
  url_attr py (pol_url p) (lower name) a k v = VLeave \/ exists s, v = Some s /\ url_attr py (pol_url p) (lower name) a k v = VSet s.
Definition fixed (name : str) (a : attr_list) : Prop :=
  NoDup (map fst a) /\ lower_keys a /\
  (pol_strip_invisible p = true -> forall k s, In (k, Some s) a -> strip_invisible s = s) /\
  (forall k, In k (map fst a) -> k <> [] /\ In k (allowed_for (effective_allowed p) name)) /\
  stable_url name a /\
  (allowed_css p <> [] -> forall v, In (u "style", v) a -> exists s, v = Some s /\ sanitize_inline_style py (allowed_css p) s (lower name) (Some (pol_url p)) = Keep s) /\
  (force_link_rel p <> [] -> merge_rel (force_link_rel p) name a = a).

Lemma strip_attrs_fixed i a : (forall k s, In (k, Some s) a -> strip_invisible s = s) -> strip_attrs i a = (a, []).
Proof.
  intros H. unfold strip_attrs.
  assert (E1 : map (fun kv => (fst kv, strip_value (snd kv))) a = a).
  { rewrite <- (map_id a) at 2. apply map_ext_in. intros [k [s|]] Hk; cbn [fst snd strip_value option_map]; [|reflexivity]. rewrite (H k s Hk). reflexivity. }
  assert (E2 : filter (fun kv : str * option str => match snd kv with Some v => negb (str_eqb (strip_invisible v) v) | None => false end) a = []).
  { induction a as [|[k v] a IH]; [reflexivity|]. cbn [filter snd]. destruct v as [s|].
    - rewrite (H k s (or_introl eq_refl)), str_eqb_refl. cbn [negb]. apply IH; [intros k' s' Hk; eapply H; right; exact Hk|]. cbn [map] in E1. congruence.
    - apply IH; [intros k' s' Hk; eapply H; right; exact Hk|]. cbn [map] in E1. congruence. }
  rewrite E1. rewrite E2. reflexivity.
Qed.
Lemma url_loop_fixed name i all l d s : lower_keys l -> (forall k v, In (k, v) l ->
  url_attr py (pol_url p) (lower name) all k v = VLeave \/ exists s, v = Some s /\ url_attr py (pol_url p) (lower name) all k v = VSet s) ->
  url_loop py (pol_url p) (lower name) i all l d s = Some (d, s, []).
Proof.
  induction l as [|[k v] l IH]; intros LK H; [reflexivity|]. cbn [url_loop].
  assert (IH' : url_loop py (pol_url p) (lower name) i all l d s = Some (d, s, [])).
  { apply IH; [intros x Hx; apply LK; right; exact Hx|]. intros k' v' Hk. apply H. right. exact Hk. }
  destruct (H k v (or_introl eq_refl)) as [->|(x & -> & ->)]; [exact IH'|].
  rewrite (LK k (or_introl eq_refl)), !str_eqb_refl. cbn [negb]. exact IH'.
Qed.
Lemma final_fixed i name a : fixed name a -> final_attrs py p i name a = Ok a [].
Proof.
  intros (ND & LK & S1 & S2 & S3 & S4 & S5). unfold final_attrs.
  assert (E1 : (if pol_strip_invisible p then Ok (fst (strip_attrs i a)) (snd (strip_attrs i a)) else Ok a []) = Ok a []).
  { destruct (pol_strip_invisible p); [|reflexivity]. rewrite (strip_attrs_fixed i a (S1 eq_refl)). reflexivity. }
  rewrite E1, bind_nil. unfold edit_attrs.
  assert (E2 : allowlist_attrs p i name a = Ok a []).
  { unfold allowlist_attrs. match goal with |- (if ?b then _ else _) = _ => assert (Hb : b = true); [|rewrite Hb; reflexivity] end.
    apply forallb_forall. intros [k v] Hk. cbn [fst]. assert (Hk' : In k (map fst a)) by (apply in_map_iff; exists (k, v); auto). destruct (S2 k Hk') as [N A].
    destruct k; [congruence|]. apply in_strs_In. exact A. }
  rewrite E2, bind_nil.
  assert (E3 : drop_url_attrs py (pol_url p) i name a = Ok a []).
  { unfold drop_url_attrs. rewrite url_loop_fixed; [reflexivity|exact LK|exact S3]. }
  rewrite E3, bind_nil.
  assert (E4 : match allowed_css p with [] => Ok a [] | _ => allow_style_attrs py p i name a end = Ok a []).
  { destruct (allowed_css p) as [|c cs] eqn:Ec; [reflexivity|]. unfold allow_style_attrs. rewrite Ec.
    destruct (List.find _ a) as [[k v]|] eqn:Ef; [|reflexivity]. destruct (find_style a k v LK Ef) as [-> Hin].
    destruct (S4 ltac:(discriminate) v Hin) as (s & -> & E). rewrite E, !str_eqb_refl. reflexivity. }
  rewrite E4, bind_nil. destruct (force_link_rel p) as [|x r] eqn:Ef; [reflexivity|]. rewrite S5 by discriminate. reflexivity.
Qed.

(* ---- the walk ---- *)
Definition fixed_node (n : node) : Prop :=
  match n with
  | El i name ns attrs _ _ => In (lower name) (allowed_tags p) /\ ~ foreign name ns /\ fixed name attrs
  | Tx _ d => pol_strip_invisible p = true -> strip_invisible d = d
  | Cm _ _ | Pi _ _ => pol_drop_comments p = false
  | Dt _ _ => pol_drop_doctype p = false
  | Fr _ _ _ => True
  end.
Lemma fixed_run n : mark (info_of n) = 0%nat -> fixed_node n ->
  run py p (mark (info_of n)) (skipn (mark (info_of n)) (pipeline p)) (foreign_here n) n = Ok (Stay n) [].
Proof.
  intros Hm H. rewrite Hm. destruct n as [i name ns attrs ch tc | i d | i d | i d | i d | i name ch]; cbn [fixed_node info_of] in *.
  - destruct H as (H1 & H2 & H3). rewrite run_El by lia.
    assert (Ef : foreign_here (El i name ns attrs ch tc) = false).
    { destruct (foreign_here _) eqn:E; [|reflexivity]. apply foreign_here_spec in E. contradiction. }
    rewrite Ef. cbn [Nat.eqb andb]. unfold decide. apply in_strs_In in H1. rewrite H1. rewrite final_fixed by exact H3. reflexivity.
  - destruct (run_text py p 0 (foreign_here (Tx i d)) i d) as (d' & fs & E & _ & G). destruct (G ltac:(lia)) as [-> ->]. rewrite E.
    destruct (pol_strip_invisible p); [rewrite (H eq_refl)|]; rewrite str_eqb_refl; reflexivity.
  - rewrite (run_comment py p 0 _ (Cm i d) i d) by auto. rewrite H. reflexivity.
  - rewrite (run_comment py p 0 _ (Pi i d) i d) by auto. rewrite H. reflexivity.
  - rewrite run_doctype by lia. rewrite H. reflexivity.
  - apply run_Fr.
Qed.
Definition mark_zero (n : node) : Prop := mark (info_of n) = 0%nat.
Lemma not_foreign_here n : fixed_node n -> foreign_here n = false.
Proof.
  intros H. destruct n; try reflexivity. destruct H as (_ & H & _). destruct (foreign_here _) eqn:E; [|reflexivity]. apply foreign_here_spec in E. contradiction.
Qed.
Lemma walk_fixed k : forall doc done l, (weights l < k)%nat -> Forall (All fixed_node) l -> Forall (All mark_zero) l ->
  walk py p k doc false done l = Ok (done ++ l)%list [].
Proof.
  induction k as [|k IH]; intros doc done l Hw HF HM; [lia|]. destruct l as [|n l]; [cbn [walk]; rewrite app_nil_r; reflexivity|].
  apply Forall_cons_iff in HF, HM. destruct HF as [Hn HF], HM as [Mn HM].
  assert (Hw1 : (weight n + weights l < S k)%nat) by (cbn [weights fold_right] in Hw; exact Hw).
  assert (Hn0 : fixed_node n) by (apply All_self in Hn; exact Hn). assert (Mn0 : mark_zero n) by (apply All_self in Mn; exact Mn).
  cbn [walk orb]. rewrite (not_foreign_here n Hn0). cbn [orb]. rewrite <- (not_foreign_here n Hn0) at 1. rewrite (fixed_run n Mn0 Hn0). rewrite bind_nil.
  assert (HL : forall x, (0 < weight n)%nat -> walk py p k doc false (done ++ [x]) l = Ok (done ++ x :: l)%list []).
  { intros x Hx. rewrite IH; [|lia|assumption|assumption]. rewrite <- app_assoc. reflexivity. }
  destruct n as [i name ns attrs ch tc | i d | i d | i d | i d | i name ch]; try (apply HL; cbn [weight]; lia).
  - apply All_El_inv in Hn, Mn. destruct Hn as (_ & F1 & F2), Mn as (_ & M1 & M2). rewrite weight_El in Hw1.
    rewrite IH; [|lia|assumption|assumption]. cbn [app]. rewrite bind_nil.
    destruct tc as [t|].
    + rewrite IH; [|lia|apply F2; reflexivity|apply M2; reflexivity]. rewrite !bind_nil. apply HL. rewrite weight_El. lia.
    + rewrite bind_nil. apply HL. rewrite weight_El. lia.
  - apply All_Fr_inv in Hn, Mn. destruct Hn as (_ & F1), Mn as (_ & M1).
    assert (Wf : weight (Fr i name ch) = (2 + weights ch)%nat) by reflexivity. rewrite Wf in Hw1.
    rewrite IH; [|lia|assumption|assumption]. cbn [app]. rewrite bind_nil. apply HL. rewrite Wf. lia.
Qed.

(* [fresh n = n]: the bookkeeping fields of the walk are at their initial values *)
Lemma fresh_fixed n : All fixed_node n -> All fixed_node (fresh n).
Proof.
  induction n as [i name ns attrs ch tc H1 H2 | i d | i d | i d | i d | i name ch H1] using node_ind2; intros H; cbn [fresh];
    try (apply All_leaf; [exact I|]; apply All_self in H; exact H).
  - apply All_El_inv in H. destruct H as (Hn & Hc & Ht). apply All_El; [exact Hn| |].
    + apply Forall_map. rewrite Forall_forall in *. auto.
    + intros l El_. destruct tc as [l0|]; [|discriminate El_]. cbn [option_map] in El_. injection El_ as <-. specialize (H2 _ eq_refl). specialize (Ht _ eq_refl).
      apply Forall_map. rewrite Forall_forall in *. auto.
  - apply All_Fr_inv in H. destruct H as (Hn & Hc). apply All_Fr; [exact I|]. apply Forall_map. rewrite Forall_forall in *. auto.
Qed.
Lemma fresh_mark_zero n : All mark_zero (fresh n).
Proof.
  induction n as [i name ns attrs ch tc H1 H2 | i d | i d | i d | i d | i name ch H1] using node_ind2; cbn [fresh]; try (apply All_leaf; [exact I|reflexivity]).
  - apply All_El; [reflexivity|apply Forall_map; exact H1|]. intros l El_. destruct tc as [l0|]; [|discriminate El_]. cbn [option_map] in El_. injection El_ as <-.
    apply Forall_map. exact (H2 _ eq_refl).
  - apply All_Fr; [reflexivity|apply Forall_map; exact H1].
Qed.
Lemma fresh_idem n : fresh (fresh n) = fresh n.
Proof.
  induction n as [i name ns attrs ch tc H1 H2 | i d | i d | i d | i d | i name ch H1] using node_ind2; cbn [fresh]; try reflexivity.
  - f_equal; [rewrite map_map; apply map_ext_Forall; exact H1|]. destruct tc as [l|]; [|reflexivity]. cbn [option_map]. f_equal. rewrite map_map. apply map_ext_Forall. exact (H2 _ eq_refl).
  - f_equal. rewrite map_map. apply map_ext_Forall. exact H1.
Qed.
Lemma fresh_children n : fresh n = n -> match n with El _ _ _ _ ch _ | Fr _ _ ch => map fresh ch = ch | _ => True end.
Proof. destruct n; cbn [fresh]; intros H; try exact I; injection H; congruence. Qed.

(* no element needs rawtext hardening *)
Definition no_rawtext : Prop := forall t, In t (allowed_tags p) -> t <> u "script" /\ t <> u "style".
Lemma no_rawtext_b : no_rawtext -> existsb (fun t => in_strs t [u "script"; u "style"]) (allowed_tags p) = false.
Proof.
  intros Hraw. destruct (existsb _ _) eqn:E; [|reflexivity]. apply existsb_exists in E. destruct E as (t & Ht & E). apply in_strs_In in E. destruct (Hraw t Ht) as [A B]. cbn [In] in E. intuition congruence.
Qed.
(* script and style elements that are left alone *)
Definition raw_fixed (n : node) : Prop :=
  match n with El _ name _ _ ch _ => in_strs (lower name) [u "script"; u "style"] = true -> ch <> [] -> harden_children (lower name) ch = Ok ch [] | _ => True end.
Lemma mapM_id {A} (f : A -> res A) l : Forall (fun x => f x = Ok x []) l -> mapM f l = Ok l [].
Proof. induction 1 as [|x l H1 H IH]; [reflexivity|]. cbn [mapM]. rewrite H1, bind_nil. fold (mapM f l) in *. change ((fix go l := match l with [] => Ok [] [] | a :: r => bind (f a) (fun b => bind (go r) (fun bs => Ok (b :: bs) [])) end) l) with (mapM f l). rewrite IH. reflexivity. Qed.
Lemma harden_id n : All raw_fixed n -> harden n = Ok n [].
Proof.
  induction n as [i name ns attrs ch tc H1 H2 | i d | i d | i d | i d | i name ch H1] using node_ind2; intros H; try reflexivity; cbn [harden].
  - apply All_El_inv in H. destruct H as (Hn & Hc & Ht). destruct (in_strs (lower name) [u "script"; u "style"]) eqn:E.
    + destruct ch as [|c ch]; [reflexivity|]. rewrite Hn; [reflexivity|exact E|discriminate].
    + assert (G : forall l, Forall (fun n => All raw_fixed n -> harden n = Ok n []) l -> Forall (All raw_fixed) l -> mapM harden l = Ok l []).
      { intros l A B. apply mapM_id. rewrite Forall_forall in *. auto. }
      rewrite (G ch H1 Hc). destruct tc as [l|]; [|reflexivity]. rewrite (G l (H2 _ eq_refl) (Ht _ eq_refl)). reflexivity.
  - apply All_Fr_inv in H. destruct H as (Hn & Hc). rewrite mapM_id; [reflexivity|]. rewrite Forall_forall in *. auto.
Qed.
Lemma apply_children_fixed doc l : no_rawtext \/ Forall (All raw_fixed) l -> Forall (All fixed_node) l -> map fresh l = l -> apply_children py p doc l = Ok l [].
Proof.
  intros Hr HF Hf. unfold apply_children. rewrite Hf. rewrite walk_fixed; [|lia|exact HF|].
  - rewrite bind_nil. cbn [app]. rewrite Hf. destruct Hr as [Hr|Hr]; [rewrite no_rawtext_b by exact Hr; reflexivity|].
    destruct (existsb _ _); [|reflexivity]. apply mapM_id. eapply Forall_impl; [|exact Hr]. exact harden_id.
  - rewrite <- Hf. apply Forall_map. apply Forall_forall. intros x _. apply fresh_mark_zero.
Qed.
Lemma apply_fixed n : no_rawtext \/ All raw_fixed n -> All fixed_node n -> fresh n = n -> apply_policy_to_root py p n = Ok n [].
Proof.
  intros Hr HF Hf.
  assert (G : bind (apply_children py p false [n]) (fun ch' => match ch' with [only] => Ok only [] | _ => Ok (Fr no_info (u "#document-fragment") ch') [] end) = Ok n []).
  { rewrite apply_children_fixed; [reflexivity| |constructor; [exact HF|constructor]|].
    - destruct Hr as [Hr|Hr]; [left; exact Hr|right; constructor; [exact Hr|constructor]].
    - cbn [map]. rewrite Hf. reflexivity. }
  destruct n as [i name ns attrs ch tc | i d | i d | i d | i d | i name ch]; try exact G.
  cbn [apply_policy_to_root]. apply fresh_children in Hf. apply All_Fr_inv in HF. destruct HF as [_ HF]. rewrite apply_children_fixed; [reflexivity| |exact HF|exact Hf].
  destruct Hr as [Hr|Hr]; [left; exact Hr|right]. apply All_Fr_inv in Hr. apply Hr.
Qed.
End Clean.
