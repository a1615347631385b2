(* MODEL: sanitizer/policy.py:125-130, 242-337 SanitizationPolicy.__post_init__ (argument type checks left out), and the proof that every
   constructed policy meets the conditions of the theorems about sanitization. *)
From Verif Require Import Str StrFacts SerializerModel UrlModel CssModel SanModel SanSpec SanFacts SanFuel SanProofs SanAttrProofs SanTreeProofs SanCleanFinal SanIdemProofs.
Open Scope N_scope.

(* policy.py:125-126 _normalize_policy_name; 129-130 _normalize_policy_name_set (a set, here a list) *)
Definition norm_name (s : str) : str := lower (strip s).
Definition norm_names (l : list str) : list str := filter (fun s => match s with [] => false | _ => true end) (map norm_name l).
(* policy.py:271-283, the loop over the allowed attributes; None: ValueError for an empty tag name *)
Fixpoint norm_attrs (l : list (str * list str)) (out : list (str * list str)) : option (list (str * list str)) :=
  match l with
  | [] => Some out
  | (t, a) :: r =>
    match norm_name t with
    | [] => None
    | _ => norm_attrs r (dict_set (norm_name t) (match assoc (norm_name t) out with Some old => (old ++ norm_names a)%list | None => norm_names a end) out)
    end
  end.
(* policy.py:242-325: None: ValueError *)
Definition make_policy (tags : list str) (attrs : list (str * list str)) (url : url_policy) (drop_comments drop_doctype : bool) (content css rel : list str)
  (mode : unsafe_mode) (h : tag_handling) (strip_inv : bool) : option policy :=
  match norm_attrs attrs [] with
  | None => None
  | Some a =>
    if existsb (fun e => in_strs (u "style") (snd e)) a && (match css with [] => true | _ => false end) then None
    else Some (Policy (norm_names tags) a url drop_comments drop_doctype (norm_names content) css (norm_names rel) mode h strip_inv)
  end.

Lemma norm_names_ok l k : In k (norm_names l) -> lower k = k /\ k <> [].
Proof.
  unfold norm_names. intros H. apply filter_In in H. destruct H as [H N]. apply in_map_iff in H. destruct H as (x & <- & _). split; [apply lower_idem|].
  destruct (norm_name x); [discriminate N|discriminate].
Qed.
Definition attrs_fine (out : list (str * list str)) : Prop :=
  NoDup (map fst out) /\ forall t l, In (t, l) out -> lower t = t /\ t <> [] /\ forall k, In k l -> lower k = k /\ k <> [].
Lemma dict_set_fine k v out : attrs_fine out -> lower k = k -> k <> [] -> (forall x, In x v -> lower x = x /\ x <> []) -> attrs_fine (dict_set k v out).
Proof.
  intros [ND H] Lk Nk Hv. unfold dict_set. destruct (dict_has k out) eqn:E.
  - split.
    + rewrite map_map. erewrite map_ext; [exact ND|]. intros [a b]. cbn [fst]. destruct (str_eqb k a); reflexivity.
    + intros t l Hi. apply in_map_iff in Hi. destruct Hi as ([a b] & Q & Hi). cbn [fst] in Q. destruct (H _ _ Hi) as (A & B & C). destruct (str_eqb k a); injection Q as <- <-; auto.
  - split.
    + rewrite map_app. cbn [map fst].
      assert (Ni : ~ In k (map fst out)). { intros Hi. apply in_map_iff in Hi. destruct Hi as ([a b] & Q & Hi). cbn [fst] in Q. subst a. unfold dict_has in E.
        assert (existsb (fun p0 => str_eqb k (fst p0)) out = true) by (apply existsb_exists; exists (k, b); split; [exact Hi|cbn [fst]; apply str_eqb_refl]). congruence. }
      clear E H. induction (map fst out) as [|x m IH]; cbn [app]; [constructor; [intros []|constructor]|]. inversion ND; subst. constructor.
      * intros Q. apply in_app_or in Q. destruct Q as [Q|[Q|[]]]; [contradiction|]. apply Ni. left. symmetry. exact Q.
      * apply IH; [assumption|]. intros Q. apply Ni. right. exact Q.
    + intros t l Hi. apply in_app_or in Hi. destruct Hi as [Hi|[Hi|[]]]; [apply H; exact Hi|]. injection Hi as <- <-. auto.
Qed.
Lemma assoc_In {A} k (l : list (str * A)) v : assoc k l = Some v -> In (k, v) l.
Proof. induction l as [|[a b] l IH]; cbn [assoc]; [discriminate|]. destruct (str_eqb k a) eqn:E; [intros Q; injection Q as ->; left; apply str_eqb_eq in E; congruence|]. intros Q. right. auto. Qed.
Lemma norm_attrs_fine l : forall out a, attrs_fine out -> norm_attrs l out = Some a -> attrs_fine a.
Proof.
  induction l as [|[t x] l IH]; intros out a H E; cbn [norm_attrs] in E; [injection E as <-; exact H|].
  destruct (norm_name t) as [|c n] eqn:En; [discriminate E|]. eapply IH; [|exact E]. apply dict_set_fine; [exact H|rewrite <- En; apply lower_idem|discriminate|].
  intros k Hk. destruct (assoc (c :: n) out) as [old|] eqn:Ea.
  - apply in_app_or in Hk. destruct Hk as [Hk|Hk]; [|apply norm_names_ok in Hk; exact Hk]. destruct H as [_ H]. apply assoc_In in Ea. destruct (H _ _ Ea) as (_ & _ & C). auto.
  - apply norm_names_ok in Hk. exact Hk.
Qed.
Theorem made_policy tags attrs url dc dd content css rel mode h si p : NoDup (map fst (allow_rules url)) ->
  make_policy tags attrs url dc dd content css rel mode h si = Some p -> valid_policy p /\ dict_policy p /\ (forall t l, In (t, l) (allowed_attributes p) -> lower t = t).
Proof.
  intros Hu H. unfold make_policy in H. destruct (norm_attrs attrs []) as [a|] eqn:E; [|discriminate H].
  apply norm_attrs_fine in E; [|split; [constructor|intros t l []]]. destruct E as [ND E].
  destruct (existsb _ a && _) eqn:Es; [discriminate H|]. injection H as <-. unfold valid_policy, dict_policy. cbn [allowed_attributes allowed_css pol_url].
  repeat split.
  - intros t l k A B. exact (proj1 (proj2 (proj2 (E _ _ A)) k B)).
  - intros t l A B Ec. rewrite Ec in Es. apply Bool.andb_false_iff in Es. destruct Es as [Es|Es]; [|discriminate Es].
    assert (existsb (fun e => in_strs (u "style") (snd e)) a = true) by (apply existsb_exists; exists (t, l); split; [exact A|apply in_strs_In; exact B]). congruence.
  - exact ND.
  - exact Hu.
  - intros t l k A B. exact (proj2 (proj2 (proj2 (E _ _ A)) k B)).
  - intros t l A. exact (proj1 (E _ _ A)).
Qed.
