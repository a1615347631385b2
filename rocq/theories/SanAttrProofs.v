(* What the attribute transforms of the pipeline leave on an element. *)
From Coq Require Import Lia.
From Verif Require Import Str StrFacts SerializerModel UrlModel CssModel CssFinal SanModel SanSpec SanFacts.
Open Scope N_scope.

(* ---------------- dicts ---------------- *)
Section Dict.
Context {A : Type}.
Implicit Types (l : list (str * A)) (k : str) (v : A).
Lemma dict_has_In k l : dict_has k l = true <-> In k (map fst l).
Proof.
  unfold dict_has. rewrite existsb_exists, in_map_iff. split.
  - intros (x & H1 & H2). apply str_eqb_eq in H2. exists x. auto.
  - intros (x & H1 & H2). exists x. split; [exact H2|]. apply str_eqb_eq. auto.
Qed.
Lemma dict_set_new k v l : ~ In k (map fst l) -> dict_set k v l = (l ++ [(k, v)])%list.
Proof. intros H. unfold dict_set. destruct (dict_has k l) eqn:E; [|reflexivity]. apply dict_has_In in E. contradiction. Qed.
Lemma dict_set_keys_old k v l : In k (map fst l) -> map fst (dict_set k v l) = map fst l.
Proof.
  intros H. unfold dict_set. apply dict_has_In in H. rewrite H. rewrite map_map. apply map_ext. intros [k' v']. cbn [fst]. destruct (str_eqb k k'); reflexivity.
Qed.
Lemma dict_set_keys k v l x : In x (map fst (dict_set k v l)) -> x = k \/ In x (map fst l).
Proof.
  destruct (dict_has k l) eqn:E.
  - apply dict_has_In in E. rewrite dict_set_keys_old by exact E. auto.
  - rewrite dict_set_new. 2:{ rewrite <- dict_has_In. congruence. } rewrite map_app, in_app_iff. cbn. intuition.
Qed.
Lemma dict_set_In k v l x : In x (dict_set k v l) -> x = (k, v) \/ (In x l /\ fst x <> k).
Proof.
  unfold dict_set. destruct (dict_has k l) eqn:E.
  - intros H. apply in_map_iff in H. destruct H as ([k' v'] & <- & H). cbn [fst]. destruct (str_eqb_spec k k') as [->|N]; [left; reflexivity|]. right. split; [exact H|]. cbn. congruence.
  - intros H. apply in_app_or in H. destruct H as [H|[<-|[]]]; [|auto]. right. split; [exact H|]. intros <-.
    assert (dict_has (fst x) l = true) by (apply dict_has_In, in_map; exact H). congruence.
Qed.
Lemma NoDup_snoc {B} (l : list B) x : NoDup l -> ~ In x l -> NoDup (l ++ [x]).
Proof.
  intros H N. induction H as [|y l Hy H IH]; cbn [app]; [constructor; [intros []|constructor]|].
  constructor; [|apply IH; intros Q; apply N; right; exact Q]. rewrite in_app_iff. intros [Q|[<-|[]]]; [exact (Hy Q)|]. apply N. left. reflexivity.
Qed.
Lemma dict_set_NoDup k v l : NoDup (map fst l) -> NoDup (map fst (dict_set k v l)).
Proof.
  intros H. destruct (dict_has k l) eqn:E.
  - apply dict_has_In in E. rewrite dict_set_keys_old by exact E. exact H.
  - assert (N : ~ In k (map fst l)) by (rewrite <- dict_has_In; congruence). rewrite dict_set_new by exact N. rewrite map_app. apply NoDup_snoc; assumption.
Qed.
Lemma dict_pop_In k l x : In x (dict_pop k l) <-> In x l /\ fst x <> k.
Proof. unfold dict_pop. rewrite filter_In, negb_true_iff, str_eqb_neq. split; intros [H N]; split; auto. Qed.
Lemma filter_keys_NoDup (f : str * A -> bool) l : NoDup (map fst l) -> NoDup (map fst (filter f l)).
Proof.
  induction l as [|x l IH]; cbn [filter map]; [auto|]. intros H. inversion H; subst. destruct (f x); cbn [map]; [|auto]. constructor; [|auto].
  intros Q. apply in_map_iff in Q. destruct Q as (y & E & Hy). apply filter_In in Hy. apply H2. rewrite <- E. apply in_map. apply Hy.
Qed.
Lemma NoDup_key_inj l k v v' : NoDup (map fst l) -> In (k, v) l -> In (k, v') l -> v = v'.
Proof.
  induction l as [|[a b] l IH]; cbn [map fst]; [intros _ []|]. intros H. inversion H; subst. intros [E|Q] [E'|Q'].
  - congruence.
  - injection E as -> ->. contradiction H2. apply in_map_iff. exists (k, v'). auto.
  - injection E' as -> ->. contradiction H2. apply in_map_iff. exists (k, v). auto.
  - auto.
Qed.
Lemma assoc_In k v l : assoc k l = Some v -> In (k, v) l.
Proof.
  induction l as [|[a b] l IH]; cbn [assoc]; [discriminate|]. destruct (str_eqb_spec k a) as [->|N].
  - intros H. left. congruence.
  - intros H. right. auto.
Qed.
Lemma assoc_NoDup k v l : NoDup (map fst l) -> In (k, v) l -> assoc k l = Some v.
Proof.
  intros N H. induction l as [|[a b] l IH]; [destruct H|]. cbn [assoc]. destruct (str_eqb_spec k a) as [->|Ne].
  - f_equal. eapply NoDup_key_inj; [exact N| |exact H]. left. reflexivity.
  - destruct H as [H|H]; [congruence|]. inversion N; subst. auto.
Qed.
Lemma assoc_None k l : ~ In k (map fst l) -> assoc k l = None.
Proof. intros H. destruct (assoc k l) eqn:E; [|reflexivity]. apply assoc_In in E. contradiction H. apply in_map_iff. eexists. split; [|exact E]. reflexivity. Qed.
End Dict.

Section Attrs.
Variable py : urllib.
Variable p : policy.
Hypothesis VP : valid_policy p.

Definition lower_keys (l : attr_list) : Prop := forall k, In k (map fst l) -> lower k = k.

(* ---------------- the allowlist ---------------- *)
Lemma allowlist_loop_keys i allowed l : forall out c o c' f, allowlist_loop i allowed l out c = (o, c', f) ->
  (forall k, In k (map fst out) -> In k allowed) -> forall k, In k (map fst o) -> In k allowed.
Proof.
  induction l as [|[k0 v] l IH]; intros out c o c' f H Ho; cbn [allowlist_loop] in H.
  - injection H as <- _ _. exact Ho.
  - destruct (strip k0); [eapply IH; eassumption|]. destruct (in_strs k0 allowed) eqn:E1.
    + eapply IH; [exact H|]. intros k Hk. apply dict_set_keys in Hk. destruct Hk as [->|Hk]; [apply in_strs_In; exact E1|auto].
    + destruct (in_strs (lower k0) allowed) eqn:E2.
      * eapply IH; [exact H|]. intros k Hk. apply dict_set_keys in Hk. destruct Hk as [->|Hk]; [apply in_strs_In; exact E2|auto].
      * destruct (allowlist_loop i allowed l out true) as [[o1 c1] f1] eqn:E. injection H as <- _ _. eapply IH; eassumption.
Qed.
Lemma allowlist_loop_NoDup i allowed l : forall out c o c' f, allowlist_loop i allowed l out c = (o, c', f) -> NoDup (map fst out) -> NoDup (map fst o).
Proof.
  induction l as [|[k0 v] l IH]; intros out c o c' f H Ho; cbn [allowlist_loop] in H.
  - injection H as <- _ _. exact Ho.
  - destruct (strip k0); [eapply IH; eassumption|]. destruct (in_strs k0 allowed).
    + eapply IH; [exact H|]. apply dict_set_NoDup. exact Ho.
    + destruct (in_strs (lower k0) allowed).
      * eapply IH; [exact H|]. apply dict_set_NoDup. exact Ho.
      * destruct (allowlist_loop i allowed l out true) as [[o1 c1] f1] eqn:E. injection H as <- _ _. eapply IH; eassumption.
Qed.
(* not changed: every key is allowed as it is *)
Lemma allowlist_loop_unchanged i allowed l : forall out c o f, allowlist_loop i allowed l out c = (o, false, f) ->
  c = false /\ f = [] /\ forall k, In k (map fst l) -> In k allowed.
Proof.
  induction l as [|[k0 v] l IH]; intros out c o f H; cbn [allowlist_loop] in H.
  - injection H as _ -> <-. split; [reflexivity|]. split; [reflexivity|]. intros k [].
  - destruct (strip k0); [apply IH in H; destruct H; discriminate|]. destruct (in_strs k0 allowed) eqn:E1.
    + apply IH in H. destruct H as (-> & -> & H). split; [reflexivity|]. split; [reflexivity|]. intros k [<-|Hk]; [apply in_strs_In; exact E1|auto].
    + destruct (in_strs (lower k0) allowed); [apply IH in H; destruct H; discriminate|].
      destruct (allowlist_loop i allowed l out true) as [[o1 c1] f1] eqn:E. injection H as _ -> _. apply IH in E. destruct E; discriminate.
Qed.
Lemma allowlist_keys i name a b fs : allowlist_attrs p i name a = Ok b fs -> NoDup (map fst a) ->
  NoDup (map fst b) /\ forall k, In k (map fst b) -> In k (allowed_for (effective_allowed p) name).
Proof.
  unfold allowlist_attrs. match goal with |- context [if ?x then Ok a [] else _] => destruct x eqn:Ef end.
  - intros H N. injection H as <- _. split; [exact N|]. intros k Hk. apply in_map_iff in Hk. destruct Hk as ([k' v] & <- & Hk).
    rewrite forallb_forall in Ef. specialize (Ef _ Hk). cbn [fst] in *. destruct k' as [|c k']; [discriminate Ef|]. apply in_strs_In. exact Ef.
  - destruct (allowlist_loop i _ a [] false) as [[o c] f] eqn:E. intros H N. injection H as <- _. destruct c.
    + split; [eapply allowlist_loop_NoDup; [exact E|constructor]|]. eapply allowlist_loop_keys; [exact E|]. intros k [].
    + apply allowlist_loop_unchanged in E. split; [exact N|]. apply E.
Qed.

Lemma effective_In t l : In (t, l) (effective_allowed p) -> In (t, l) (allowed_attributes p) \/
  (t = u "a" /\ force_link_rel p <> [] /\ exists l0, l = u "rel" :: l0 /\ (l0 = [] \/ In (u "a", l0) (allowed_attributes p))).
Proof.
  unfold effective_allowed. destruct (force_link_rel p) as [|x r]; [auto|]. destruct (_ && _); [|auto]. intros H. apply dict_set_In in H.
  destruct H as [H|[H _]]; [|auto]. right. injection H as -> ->. split; [reflexivity|]. split; [discriminate|]. eexists. split; [reflexivity|].
  destruct (assoc (u "a") (allowed_attributes p)) as [l0|] eqn:E; [|auto]. right. apply assoc_In. exact E.
Qed.
Lemma allowed_for_attr name k : In k (allowed_for (effective_allowed p) name) -> attr_allowed p name k.
Proof.
  assert (G : forall t l, (t = u "*" \/ t = name \/ t = lower name) -> assoc t (effective_allowed p) = Some l -> In k l -> attr_allowed p name k).
  { intros t l Ht Hl Hk. apply assoc_In, effective_In in Hl. destruct Hl as [Hl|(-> & Hf & l0 & -> & Hl)].
    - left. exists t, l. auto.
    - destruct Hk as [<-|Hk].
      + right. split; [reflexivity|]. split; [|exact Hf]. destruct Ht as [Ht|[<-|Ht]]; [discriminate Ht|reflexivity|auto].
      + destruct Hl as [->|Hl]; [destruct Hk|]. left. exists (u "a"), l0. auto. }
  assert (G0 : In k (match assoc [42] (effective_allowed p) with Some x => x | None => [] end) -> attr_allowed p name k).
  { destruct (assoc [42] (effective_allowed p)) as [l|] eqn:E; [|intros []]. intros H. eapply G; [|exact E|exact H]. auto. }
  unfold allowed_for. intros H. destruct (str_eqb name [42]).
  - destruct (str_eqb (lower name) [42]); [exact (G0 H)|]. destruct (assoc (lower name) (effective_allowed p)) as [l|] eqn:E; [|exact (G0 H)].
    cbn [option_map] in H. apply in_app_or in H. destruct H as [H|H]; [exact (G0 H)|]. eapply G; [|exact E|exact H]. auto.
  - destruct (assoc name (effective_allowed p)) as [l|] eqn:E; cbn [option_map] in H.
    + apply in_app_or in H. destruct H as [H|H]; [exact (G0 H)|]. eapply G; [|exact E|exact H]. auto.
    + destruct (str_eqb (lower name) [42]); [exact (G0 H)|]. destruct (assoc (lower name) (effective_allowed p)) as [l|] eqn:E2; [|exact (G0 H)].
      cbn [option_map] in H. apply in_app_or in H. destruct H as [H|H]; [exact (G0 H)|]. eapply G; [|exact E2|exact H]. auto.
Qed.
Lemma attr_allowed_lower name k : attr_allowed p name k -> lower k = k.
Proof. intros [(t & l & _ & H1 & H2)|(-> & _)]; [|reflexivity]. destruct VP as [V _]. eapply V; eassumption. Qed.
Lemma attr_allowed_style name k : attr_allowed p name k -> k = u "style" -> allowed_css p <> [].
Proof. intros [(t & l & _ & H1 & H2)|(-> & _)] E; [|discriminate E]. subst k. destruct VP as [_ V]. eapply V; eassumption. Qed.

(* ---------------- URLs ---------------- *)
Definition drops tag all l : list str := flat_map (fun kv => match url_attr py (pol_url p) tag all (fst kv) (snd kv) with VDrop _ => [fst kv] | _ => [] end) l.
Definition sets tag all (l : attr_list) : list (str * str) :=
  flat_map (fun kv => match url_attr py (pol_url p) tag all (fst kv) (snd kv) with
                      | VSet s => if match snd kv with Some v => negb (str_eqb v s) | None => false end then [(fst kv, s)] else []
                      | _ => [] end) l.
Lemma sets_keys tag all l k : In k (map fst (sets tag all l)) -> In k (map fst l).
Proof.
  intros H. apply in_map_iff in H. destruct H as ([k' s] & <- & H). apply in_flat_map in H. destruct H as ([k2 v2] & H1 & H2). cbn [fst snd] in *.
  destruct (url_attr _ _ _ _ _ _); try destruct H2 as []. destruct (match v2 with Some v => _ | None => _ end); [|destruct H2]. destruct H2 as [E|[]].
  injection E as <- <-. apply in_map_iff. exists (k2, v2). auto.
Qed.
Lemma url_loop_simple tag i all l : lower_keys l -> NoDup (map fst l) -> forall d0 s0 d s f, (forall k, In k (map fst l) -> ~ In k (map fst s0)) ->
  url_loop py (pol_url p) tag i all l d0 s0 = Some (d, s, f) -> d = (d0 ++ drops tag all l)%list /\ s = (s0 ++ sets tag all l)%list /\
  forall k v, In (k, v) l -> url_attr py (pol_url p) tag all k v <> VErr.
Proof.
  induction l as [|[k v] l IH]; intros LK ND d0 s0 d s f Hs H; cbn [url_loop] in H.
  - injection H as <- <- _. cbn. rewrite !app_nil_r. auto.
  - assert (LK' : lower_keys l) by (intros x Hx; apply LK; right; exact Hx). cbn [map fst] in ND. inversion ND; subst.
    assert (Hs' : forall k, In k (map fst l) -> ~ In k (map fst s0)) by (intros x Hx; apply Hs; right; exact Hx).
    unfold drops, sets. cbn [flat_map fst snd]. fold (drops tag all l). fold (sets tag all l).
    rewrite (LK k (or_introl eq_refl)) in H.
    destruct (url_attr py (pol_url p) tag all k v) as [|msg|x|] eqn:E.
    + apply IH in H; auto. destruct H as (-> & -> & H). cbn [app]. split; [reflexivity|]. split; [reflexivity|]. intros k' v' [Q|Q]; [injection Q as <- <-; congruence|eauto].
    + destruct (url_loop py (pol_url p) tag i all l (d0 ++ [k]) s0) as [[[d1 s1] f1]|] eqn:El; [|discriminate H]. injection H as <- <- _.
      apply IH in El; auto. destruct El as (-> & -> & H). rewrite <- app_assoc. split; [reflexivity|]. split; [reflexivity|].
      intros k' v' [Q|Q]; [injection Q as <- <-; congruence|eauto].
    + rewrite str_eqb_refl in H. cbn [negb] in H. destruct (match v with Some v0 => negb (str_eqb v0 x) | None => false end).
      * apply IH in H; auto.
        -- destruct H as (-> & -> & H). rewrite dict_set_new by (apply Hs; left; reflexivity). rewrite <- app_assoc. split; [reflexivity|]. split; [reflexivity|].
           intros k' v' [Q|Q]; [injection Q as <- <-; congruence|eauto].
        -- intros y Hy Hy'. apply dict_set_keys in Hy'. destruct Hy' as [->|Hy']; [contradiction|]. exact (Hs' y Hy Hy').
      * apply IH in H; auto. destruct H as (-> & -> & H). cbn [app]. split; [reflexivity|]. split; [reflexivity|]. intros k' v' [Q|Q]; [injection Q as <- <-; congruence|eauto].
    + discriminate H.
Qed.
Definition url_result tag all (l : attr_list) : attr_list :=
  flat_map (fun kv => match url_attr py (pol_url p) tag all (fst kv) (snd kv) with VDrop _ => [] | VSet s => [(fst kv, Some s)] | _ => [kv] end) l.
Lemma fold_pop d (l : attr_list) : fold_left (fun o k => dict_pop k o) d l = filter (fun kv => negb (in_strs (fst kv) d)) l.
Proof.
  revert l. induction d as [|k d IH]; intros l; cbn [fold_left].
  - cbn. induction l as [|x l IHl]; [reflexivity|]. cbn [filter]. f_equal. exact IHl.
  - rewrite IH. unfold dict_pop. clear IH. induction l as [|[k' v] l IHl]; [reflexivity|]. cbn [filter fst in_strs existsb].
    destruct (str_eqb_spec k k') as [->|N]; cbn [negb].
    + rewrite str_eqb_refl. cbn [orb negb]. exact IHl.
    + cbn [filter fst]. assert (E : str_eqb k' k = false) by (apply str_eqb_neq; congruence). rewrite E. cbn [orb]. fold (in_strs k' d).
      destruct (in_strs k' d); cbn [negb]; [exact IHl|]. f_equal. exact IHl.
Qed.
Lemma fold_set s : forall (l : attr_list), NoDup (map fst s) -> (forall k, In k (map fst s) -> In k (map fst l)) ->
  fold_left (fun o kv => dict_set (fst kv) (Some (snd kv)) o) s l =
  map (fun kv => match assoc (fst kv) s with Some x => (fst kv, Some x) | None => kv end) l.
Proof.
  induction s as [|[k x] s IH]; intros l ND Hin; cbn [fold_left fst snd].
  - cbn [assoc]. rewrite map_id. reflexivity.
  - cbn [map fst] in ND. inversion ND; subst.
    assert (Hk : In k (map fst l)) by (apply Hin; left; reflexivity).
    rewrite IH; [|assumption|].
    + unfold dict_set. apply dict_has_In in Hk. rewrite Hk. rewrite map_map. apply map_ext. intros [k' v]. cbn [fst assoc].
      destruct (str_eqb_spec k k') as [->|N]; cbn [fst].
      * rewrite str_eqb_refl. rewrite assoc_None by assumption. reflexivity.
      * assert (E : str_eqb k' k = false) by (apply str_eqb_neq; congruence). rewrite E. reflexivity.
    + intros y Hy. rewrite dict_set_keys_old by exact Hk. apply Hin. right. exact Hy.
Qed.
Lemma flat_map_keys_NoDup (f : str * option str -> list str) l : (forall x k, In k (f x) -> k = fst x) -> (forall x, List.length (f x) <= 1)%nat ->
  NoDup (map fst l) -> NoDup (flat_map f l).
Proof.
  intros Hf Hlen. induction l as [|x l IH]; cbn [flat_map map]; [constructor|]. intros ND. inversion ND; subst.
  assert (N : forall k, In k (f x) -> ~ In k (flat_map f l)).
  { intros k Hk Q. apply Hf in Hk. subst k. apply in_flat_map in Q. destruct Q as (y & Hy & Q). apply Hf in Q. apply H1. rewrite Q. apply in_map. exact Hy. }
  specialize (Hlen x). destruct (f x) as [|a [|b r]]; cbn [app List.length] in *; [auto| |lia]. constructor; [apply N; left; reflexivity|auto].
Qed.
Lemma sets_NoDup tag all l : NoDup (map fst l) -> NoDup (map fst (sets tag all l)).
Proof.
  intros H. unfold sets. rewrite flat_map_concat_map, concat_map, map_map, <- flat_map_concat_map. apply flat_map_keys_NoDup; [| |exact H].
  - intros [k v] k' Hk. cbn [fst snd] in *. destruct (url_attr _ _ _ _ _ _); try destruct Hk as []. destruct (match v with Some v => _ | None => _ end); [|destruct Hk]. destruct Hk as [<-|[]]. reflexivity.
  - intros [k v]. cbn [fst snd]. destruct (url_attr _ _ _ _ _ _); try (cbn; lia). destruct (match v with Some v => _ | None => _ end); cbn; lia.
Qed.
Lemma url_attr_none tag all k s : url_attr py (pol_url p) tag all k None <> VSet s.
Proof. unfold url_attr. destruct (_ && _); [discriminate|]. destruct (if is_sink_attr _ then _ else _); discriminate. Qed.

Lemma drop_url_simple i name a b fs : lower_keys a -> NoDup (map fst a) -> drop_url_attrs py (pol_url p) i name a = Ok b fs ->
  b = url_result (lower name) a a /\ forall k v, In (k, v) a -> url_attr py (pol_url p) (lower name) a k v <> VErr.
Proof.
  intros LK ND. unfold drop_url_attrs. destruct (url_loop _ _ _ _ _ _ _ _) as [[[d s] f]|] eqn:E; [|discriminate].
  apply url_loop_simple in E; [|exact LK|exact ND|intros k _ []]. cbn [app] in E. destruct E as (-> & -> & NE). intros H.
  assert (Hb : b = fold_left (fun o kv => dict_set (fst kv) (Some (snd kv)) o) (sets (lower name) a a) (fold_left (fun o k => dict_pop k o) (drops (lower name) a a) a)) by congruence.
  clear H. split; [|exact NE]. set (tag := lower name) in *.
  assert (D : forall k v, In (k, v) a -> in_strs k (drops tag a a) = match url_attr py (pol_url p) tag a k v with VDrop _ => true | _ => false end).
  { intros k v Hkv. apply eq_true_iff_eq. rewrite in_strs_In. unfold drops. rewrite in_flat_map. split.
    - intros ([k' v'] & H1 & H2). cbn [fst snd] in H2. assert (k' = k) by (destruct (url_attr _ _ _ _ _ _); try destruct H2 as []; [assumption|contradiction]). subst k'.
      assert (v' = v) as -> by (eapply NoDup_key_inj; eassumption). destruct (url_attr _ _ _ _ _ _); try destruct H2; reflexivity.
    - intros H. exists (k, v). split; [exact Hkv|]. cbn [fst snd]. destruct (url_attr _ _ _ _ _ _); try discriminate H. left. reflexivity. }
  assert (S : forall k v, In (k, v) a -> assoc k (sets tag a a) = match url_attr py (pol_url p) tag a k v with
       | VSet s => if match v with Some v => negb (str_eqb v s) | None => false end then Some s else None | _ => None end).
  { intros k v Hkv.
    assert (S1 : forall s, In (k, s) (sets tag a a) -> url_attr py (pol_url p) tag a k v = VSet s /\ match v with Some v => negb (str_eqb v s) | None => false end = true).
    { intros s Hs. unfold sets in Hs. apply in_flat_map in Hs. destruct Hs as ([k' v'] & H1 & H2). cbn [fst snd] in H2.
      destruct (url_attr py (pol_url p) tag a k' v') as [|?|s'|] eqn:E; try destruct H2 as [].
      destruct (match v' with Some v => negb (str_eqb v s') | None => false end) eqn:E2; [|destruct H2]. destruct H2 as [Q|[]]. injection Q as -> ->.
      assert (v' = v) as -> by (eapply NoDup_key_inj; eassumption). auto. }
    destruct (assoc k (sets tag a a)) as [s|] eqn:E.
    - apply assoc_In in E. apply S1 in E. destruct E as (-> & ->). reflexivity.
    - destruct (url_attr py (pol_url p) tag a k v) as [|?|s'|] eqn:E1; try reflexivity.
      destruct (match v with Some v => negb (str_eqb v s') | None => false end) eqn:E2; [|reflexivity].
      assert (Q : In (k, s') (sets tag a a)). { unfold sets. apply in_flat_map. exists (k, v). split; [exact Hkv|]. cbn [fst snd]. rewrite E1, E2. left. reflexivity. }
      apply assoc_NoDup in Q; [congruence|]. apply sets_NoDup. exact ND. }
  rewrite Hb, fold_pop, fold_set.
  - unfold url_result. clear Hb b.
    assert (G : forall l, (forall x, In x l -> In x a) ->
       map (fun kv => match assoc (fst kv) (sets tag a a) with Some x => (fst kv, Some x) | None => kv end) (filter (fun kv => negb (in_strs (fst kv) (drops tag a a))) l)
       = flat_map (fun kv => match url_attr py (pol_url p) tag a (fst kv) (snd kv) with VDrop _ => [] | VSet s => [(fst kv, Some s)] | _ => [kv] end) l); [|apply G; auto].
    induction l as [|[k v] l IH]; intros Sub; [reflexivity|]. cbn [filter fst flat_map snd].
    assert (Hkv : In (k, v) a) by (apply Sub; left; reflexivity).
    rewrite (D k v Hkv). pose proof (S k v Hkv) as Sk. pose proof (NE k v Hkv) as Nk.
    assert (IH' := IH (fun x Hx => Sub x (or_intror Hx))).
    destruct (url_attr py (pol_url p) tag a k v) as [|m|s|] eqn:E; cbn [negb map fst app]; rewrite ?Sk, ?IH'; try reflexivity.
    destruct v as [v|]; [|exfalso; eapply url_attr_none; exact E]. destruct (str_eqb_spec v s) as [->|N]; cbn [negb]; reflexivity.
  - apply sets_NoDup. exact ND.
  - intros k Hk. apply in_map_iff in Hk. destruct Hk as ([k' s] & <- & Hk). cbn [fst].
    pose proof Hk as Hk2. unfold sets in Hk2. apply in_flat_map in Hk2. destruct Hk2 as ([k2 v2] & H1 & H2). cbn [fst snd] in H2.
    assert (k2 = k') by (destruct (url_attr _ _ _ _ _ _); try destruct H2 as []; destruct (match v2 with Some v => _ | None => _ end); [destruct H2 as [Q|[]]; congruence|destruct H2]). subst k2.
    apply in_map_iff. exists (k', v2). split; [reflexivity|]. apply filter_In. split; [exact H1|]. cbn [fst]. rewrite (D k' v2 H1).
    destruct (url_attr py (pol_url p) tag a k' v2); try destruct H2; reflexivity.
Qed.

Lemma url_result_In tag all l k v : In (k, v) (url_result tag all l) ->
  exists v0, In (k, v0) l /\ ((v = v0 /\ url_attr py (pol_url p) tag all k v0 = VLeave) \/ url_attr py (pol_url p) tag all k v0 = VErr \/
                              exists s, v = Some s /\ url_attr py (pol_url p) tag all k v0 = VSet s).
Proof.
  unfold url_result. intros H. apply in_flat_map in H. destruct H as ([k0 v0] & H1 & H2). cbn [fst snd] in H2. exists v0.
  destruct (url_attr py (pol_url p) tag all k0 v0) as [|m|s|] eqn:E; [| destruct H2 | |]; destruct H2 as [Q|[]]; injection Q as <- <-; (split; [exact H1|]); rewrite E; eauto.
Qed.
Lemma url_result_NoDup tag all l : NoDup (map fst l) -> NoDup (map fst (url_result tag all l)).
Proof.
  intros H. unfold url_result. rewrite flat_map_concat_map, concat_map, map_map, <- flat_map_concat_map. apply flat_map_keys_NoDup; [| |exact H].
  - intros [k v] k' Hk. cbn [fst snd] in *. destruct (url_attr _ _ _ _ _ _); cbn in Hk; intuition.
  - intros [k v]. cbn [fst snd]. destruct (url_attr _ _ _ _ _ _); cbn; lia.
Qed.
Lemma url_attribute_sink k kind tag attrs : In (k, kind) url_attributes -> is_sink_attr k = true /\ sink_kind_for tag k attrs = Some kind.
Proof. intros H. cbn in H. repeat (destruct H as [H|H]; [injection H as <- <-; split; reflexivity|]). destruct H. Qed.
Lemma url_attribute_lower k kind : In (k, kind) url_attributes -> lower k = k /\ k <> u "style" /\ k <> u "rel".
Proof. intros H. cbn in H. repeat (destruct H as [H|H]; [injection H as <- _; repeat split; discriminate|]). destruct H. Qed.
Lemma rule_for_In tag k r : rule_for (pol_url p) tag k = Some r -> exists t, (t = tag \/ t = u "*") /\ In (t, k, r) (allow_rules (pol_url p)).
Proof.
  unfold rule_for. destruct (get_rule tag k (allow_rules (pol_url p))) as [r1|] eqn:E1; intros H.
  - exists tag. split; [auto|]. apply get_rule_In. congruence.
  - exists [42]. split; [auto|]. apply get_rule_In. exact H.
Qed.
Lemma url_attr_checked name attrs k kind v0 s : lower k = k -> is_sink_attr k = true -> sink_kind_for (lower name) k attrs = Some kind ->
  url_attr py (pol_url p) (lower name) attrs k v0 = VSet s -> url_checked py p name k kind s.
Proof.
  intros L S1 S2. unfold url_attr. rewrite L, S1, S2. cbn [negb andb]. destruct v0 as [v0|]; [|discriminate].
  destruct (rule_for (pol_url p) (lower name) k) as [r|] eqn:Er; [|discriminate]. destruct (sanitize_sink _ _ _ _ _ _ _) as [|s'|] eqn:Es; try discriminate.
  intros H. injection H as <-. apply rule_for_In in Er. destruct Er as (t & Ht & Hr). exists t, r, v0. auto.
Qed.
Lemma url_attr_sink_leave name attrs k kind v0 : lower k = k -> is_sink_attr k = true -> sink_kind_for (lower name) k attrs = Some kind ->
  url_attr py (pol_url p) (lower name) attrs k v0 <> VLeave.
Proof.
  intros L S1 S2. unfold url_attr. rewrite L, S1, S2. cbn [negb andb]. destruct v0 as [v0|]; [|discriminate].
  destruct (rule_for (pol_url p) (lower name) k) as [r|]; [|discriminate]. destruct (sanitize_sink _ _ _ _ _ _ _); discriminate.
Qed.
Lemma guard_holds_In g vals (l : attr_list) hv : lower_keys l -> NoDup (map fst l) -> lower g = g -> In (g, Some hv) l -> In (lower (strip hv)) vals -> guard_holds g vals l = true.
Proof.
  intros LK ND Lg Hin Hv. induction l as [|[k v] l IH]; [destruct Hin|]. cbn [map fst] in ND. inversion ND; subst. cbn [guard_holds].
  rewrite (LK k (or_introl eq_refl)). destruct Hin as [E|Hin].
  - assert (k = g) as -> by congruence. assert (v = Some hv) as -> by congruence. rewrite str_eqb_refl. apply in_strs_In. exact Hv.
  - assert (k <> g) by (intros ->; apply H1; apply in_map_iff; exists (g, Some hv); auto). apply str_eqb_neq in H. rewrite H.
    assert (IH' : guard_holds g vals l = true) by (apply IH; auto; intros x Hx; apply LK; right; exact Hx). destruct v; exact IH'.
Qed.

(* the style attribute *)
Lemma find_style (l : attr_list) k v : lower_keys l -> List.find (fun kv => str_eqb (lower (fst kv)) (u "style")) l = Some (k, v) -> k = u "style" /\ In (u "style", v) l.
Proof.
  intros LK H. apply find_some in H. destruct H as [H E]. cbn [fst] in E. apply str_eqb_eq in E. rewrite LK in E; [subst k; auto|]. apply in_map_iff. exists (k, v). auto.
Qed.
Lemma style_result i name a b fs : lower_keys a -> NoDup (map fst a) -> allow_style_attrs py p i name a = Ok b fs ->
  NoDup (map fst b) /\ (forall k v, k <> u "style" -> In (k, v) b <-> In (k, v) a) /\
  (forall v, In (u "style", v) b -> exists s, v = Some s /\ style_checked py p name s) /\ (forall k, In k (map fst b) -> In k (map fst a)).
Proof.
  intros LK ND. unfold allow_style_attrs. destruct (List.find _ a) as [[k v]|] eqn:Ef.
  - destruct (find_style a k v LK Ef) as [-> Hin]. rewrite str_eqb_refl.
    assert (P : NoDup (map fst (dict_pop (u "style") a)) /\ (forall k v, k <> u "style" -> In (k, v) (dict_pop (u "style") a) <-> In (k, v) a) /\
       (forall v, In (u "style", v) (dict_pop (u "style") a) -> exists s, v = Some s /\ style_checked py p name s) /\ (forall k, In k (map fst (dict_pop (u "style") a)) -> In k (map fst a))).
    { split; [apply filter_keys_NoDup; exact ND|]. split; [|split].
      - intros k v0 N. rewrite dict_pop_In. cbn [fst]. intuition.
      - intros v0 H. apply dict_pop_In in H. destruct H as [_ H]. contradiction H. reflexivity.
      - intros k H. apply in_map_iff in H. destruct H as (x & <- & H). apply dict_pop_In in H. apply in_map. apply H. }
    destruct v as [v|]; [|intros H; injection H as <- _; exact P].
    destruct (sanitize_inline_style py (allowed_css p) v (lower name) (Some (pol_url p))) as [|s|] eqn:Es.
    + intros H; injection H as <- _; exact P.
    + assert (C : style_checked py p name s) by (exists v; exact Es). cbn [andb]. destruct (str_eqb_spec v s) as [->|N]; intros H.
      * assert (b = a) as -> by congruence. split; [exact ND|]. split; [reflexivity|]. split; [|auto]. intros v H1. exists s. split; [|exact C]. eapply NoDup_key_inj; eassumption.
      * assert (b = dict_set (u "style") (Some s) a) as -> by congruence. split; [apply dict_set_NoDup; exact ND|].
        assert (Hk : In (u "style") (map fst a)) by (apply in_map_iff; eexists; split; [|exact Hin]; reflexivity).
        split; [|split].
        -- intros k v0 Nk. split; intros Q.
           ++ apply dict_set_In in Q. destruct Q as [Q|[Q _]]; [congruence|exact Q].
           ++ unfold dict_set. apply dict_has_In in Hk. rewrite Hk. apply in_map_iff. exists (k, v0). split; [|exact Q]. cbn [fst]. destruct (str_eqb_spec (u "style") k); [congruence|reflexivity].
        -- intros v0 Q. apply dict_set_In in Q. destruct Q as [Q|[_ Q]]; [|contradiction Q; reflexivity]. exists s. split; [congruence|exact C].
        -- intros k Q. rewrite dict_set_keys_old in Q by exact Hk. exact Q.
    + discriminate.
  - intros H. assert (b = a) as -> by congruence. split; [exact ND|]. split; [reflexivity|]. split; [|auto]. intros v Hv.
    pose proof (find_none _ _ Ef _ Hv) as Q. cbn [fst] in Q. discriminate Q.
Qed.

(* rel *)
Lemma fold_pop_rel (keys : list str) : forall (a : attr_list), (forall k, In k keys -> k = u "rel") ->
  fold_left (fun o k => if str_eqb k (u "rel") then o else dict_pop k o) keys a = a.
Proof.
  induction keys as [|k keys IH]; intros a H; [reflexivity|]. cbn [fold_left]. rewrite (H k (or_introl eq_refl)), str_eqb_refl. apply IH. intros x Hx. apply H. right. exact Hx.
Qed.
Lemma merge_rel_simple tokens name (a : attr_list) : lower_keys a -> lower name = u "a" ->
  merge_rel tokens name a = a /\ (exists v, assoc (u "rel") a = Some (Some v) /\ v = join [32] (fold_left add_token tokens (rel_tokens a)))
  \/ merge_rel tokens name a = dict_set (u "rel") (Some (join [32] (fold_left add_token tokens (rel_tokens a)))) a.
Proof.
  intros LK Hn. unfold merge_rel. rewrite Hn. rewrite str_eqb_refl. cbn [negb].
  rewrite fold_pop_rel.
  2:{ intros k Hk. apply filter_In in Hk. destruct Hk as [H1 H2]. apply str_eqb_eq in H2. rewrite LK in H2 by exact H1. exact H2. }
  destruct (_ || _ || _) eqn:E; [auto|]. left. split; [reflexivity|]. apply orb_false_iff in E. destruct E as [_ E]. apply negb_false_iff in E.
  destruct (assoc (u "rel") a) as [[v|]|]; try discriminate E. exists v. split; [reflexivity|]. apply str_eqb_eq. exact E.
Qed.
Lemma merge_rel_other tokens name (a : attr_list) : lower name <> u "a" -> merge_rel tokens name a = a.
Proof. intros H. unfold merge_rel. apply str_eqb_neq in H. rewrite H. reflexivity. Qed.

(* everything together *)
Definition attrs_ok (name : str) (a : attr_list) : Prop :=
  NoDup (map fst a) /\
  (forall k v, In (k, v) a -> lower k = k /\ attr_allowed p name k /\
     (forall kind, In (k, kind) url_attributes -> exists s, v = Some s /\ url_checked py p name k kind s) /\
     (k = u "style" -> exists s, v = Some s /\ style_checked py p name s)) /\
  (forall t k kind g vals v hv, In (t, k, kind, g, vals) guarded_url_attributes -> lower name = t -> In (k, v) a -> In (g, Some hv) a -> In (lower (strip hv)) vals ->
     (forall r, ~ In (t, g, r) (allow_rules (pol_url p)) /\ ~ In (u "*", g, r) (allow_rules (pol_url p))) -> exists s, v = Some s /\ url_checked py p name k kind s) /\
  (lower name = u "a" -> force_link_rel p <> [] -> exists ex, In (u "rel", Some (join [32] (fold_left add_token (force_link_rel p) ex))) a).

Lemma final_attrs_ok i name a0 a fs : NoDup (map fst a0) -> final_attrs py p i name a0 = Ok a fs -> attrs_ok name a.
Proof.
  intros ND0 H. unfold final_attrs in H. apply bind_Ok in H. destruct H as (a1 & f1 & f2 & H1 & H & _).
  assert (ND1 : NoDup (map fst a1)).
  { destruct (pol_strip_invisible p).
    - assert (E1 : a1 = fst (strip_attrs i a0)) by congruence. rewrite E1. unfold strip_attrs. cbn [fst]. rewrite map_map. cbn [fst]. exact ND0.
    - assert (E1 : a1 = a0) by congruence. rewrite E1. exact ND0. }
  clear H1. apply bind_Ok in H. destruct H as (a4 & f3 & f4 & H & H4 & _). unfold edit_attrs in H.
  apply bind_Ok in H. destruct H as (a2 & f5 & f6 & H2 & H & _). apply bind_Ok in H. destruct H as (a3 & f7 & f8 & H3 & H & _).
  destruct (allowlist_keys _ _ _ _ _ H2 ND1) as [ND2 K2].
  assert (A2 : forall k, In k (map fst a2) -> attr_allowed p name k) by (intros k Hk; apply allowed_for_attr; auto).
  assert (L2 : lower_keys a2) by (intros k Hk; eapply attr_allowed_lower; eauto).
  destruct (drop_url_simple _ _ _ _ _ L2 ND2 H3) as [E3 NE]. assert (ND3 : NoDup (map fst a3)) by (rewrite E3; apply url_result_NoDup; exact ND2).
  assert (I3 : forall k v, In (k, v) a3 -> exists v0, In (k, v0) a2 /\ ((v = v0 /\ url_attr py (pol_url p) (lower name) a2 k v0 = VLeave) \/
                              exists s, v = Some s /\ url_attr py (pol_url p) (lower name) a2 k v0 = VSet s)).
  { intros k v Hkv. rewrite E3 in Hkv. apply url_result_In in Hkv. destruct Hkv as (v0 & Hv & [Q|[Q|Q]]); eauto. exfalso. exact (NE _ _ Hv Q). }
  assert (K3 : forall k, In k (map fst a3) -> In k (map fst a2)).
  { intros k Hk. apply in_map_iff in Hk. destruct Hk as ([k' v] & <- & Hk). apply I3 in Hk. destruct Hk as (v0 & Hk & _). apply in_map_iff. exists (k', v0). auto. }
  assert (L3 : lower_keys a3) by (intros k Hk; apply L2, K3; exact Hk).
  (* style *)
  assert (S4 : NoDup (map fst a4) /\ (forall k v, k <> u "style" -> In (k, v) a4 <-> In (k, v) a3) /\
     (forall v, In (u "style", v) a4 -> exists s, v = Some s /\ style_checked py p name s) /\ (forall k, In k (map fst a4) -> In k (map fst a3))).
  { destruct (allowed_css p) as [|c cs] eqn:Ec.
    - assert (a4 = a3) as -> by congruence. split; [exact ND3|]. split; [reflexivity|]. split; [|auto]. intros v Hv. exfalso.
      assert (Hk : In (u "style") (map fst a3)) by (apply in_map_iff; eexists; split; [|exact Hv]; reflexivity).
      eapply attr_allowed_style; [apply A2, K3, Hk|reflexivity|exact Ec].
    - eapply style_result; [exact L3|exact ND3|exact H]. }
  clear H. destruct S4 as (ND4 & O4 & St4 & K4).
  assert (L4 : lower_keys a4) by (intros k Hk; apply L3, K4; exact Hk).
  assert (U3 : forall k v kind, In (k, v) a3 -> lower k = k -> is_sink_attr k = true -> sink_kind_for (lower name) k a2 = Some kind -> exists s, v = Some s /\ url_checked py p name k kind s).
  { intros k v kind Hkv Lk S1 S2. apply I3 in Hkv. destruct Hkv as (v0 & Hv & [[-> Q]|(s & -> & Q)]).
    - exfalso. eapply url_attr_sink_leave; eassumption.
    - exists s. split; [reflexivity|]. eapply url_attr_checked; eassumption. }
  assert (P4 : forall k v, In (k, v) a4 -> lower k = k /\ attr_allowed p name k /\
     (forall kind, In (k, kind) url_attributes -> exists s, v = Some s /\ url_checked py p name k kind s) /\
     (k = u "style" -> exists s, v = Some s /\ style_checked py p name s)).
  { intros k v Hkv. assert (Hk : In k (map fst a4)) by (apply in_map_iff; exists (k, v); auto). split; [apply L4; exact Hk|]. split; [apply A2, K3, K4; exact Hk|]. split.
    - intros kind Hu. destruct (url_attribute_lower _ _ Hu) as (Lk & Ns & _). apply O4 in Hkv; [|exact Ns]. destruct (url_attribute_sink k kind (lower name) a2 Hu) as [S1 S2].
      eapply U3; eassumption.
    - intros ->. apply St4. exact Hkv. }
  assert (G4 : forall t k kind g vals v hv, In (t, k, kind, g, vals) guarded_url_attributes -> lower name = t -> In (k, v) a4 -> In (g, Some hv) a4 -> In (lower (strip hv)) vals ->
     (forall r, ~ In (t, g, r) (allow_rules (pol_url p)) /\ ~ In (u "*", g, r) (allow_rules (pol_url p))) -> exists s, v = Some s /\ url_checked py p name k kind s).
  { intros t k kind g vals v hv Hg Ht Hkv Hgv Hvals Hrules.
    assert (F : lower k = k /\ k <> u "style" /\ lower g = g /\ g <> u "style" /\ is_sink_attr k = true /\ is_sink_attr g = false /\
                forall attrs, guard_holds g vals attrs = true -> sink_kind_for t k attrs = Some kind).
    { destruct Hg as [Hg|[Hg|[]]]; injection Hg as <- <- <- <- <-; (split; [reflexivity|]); (split; [discriminate|]); (split; [reflexivity|]); (split; [discriminate|]); (split; [reflexivity|]); (split; [reflexivity|]);
      intros attrs G.
      - exact (f_equal (fun b : bool => if b then Some KMetaRefresh else None) G).
      - exact (f_equal (fun b : bool => if b then Some KUrl else None) G). }
    destruct F as (Lk & Nk & Lg & Ng & S1 & S2 & Fk).
    apply O4 in Hkv; [|exact Nk]. apply O4 in Hgv; [|exact Ng]. apply I3 in Hgv. destruct Hgv as (hv0 & Hin & D).
    assert (R0 : rule_for (pol_url p) (lower name) g = None).
    { destruct (rule_for (pol_url p) (lower name) g) as [r|] eqn:Er; [|reflexivity]. exfalso. apply rule_for_In in Er. destruct Er as (t' & [Et|Et] & Hr); subst t'.
      - rewrite Ht in Hr. exact (proj1 (Hrules r) Hr).
      - exact (proj2 (Hrules r) Hr). }
    assert (V : url_attr py (pol_url p) (lower name) a2 g hv0 = VLeave) by (unfold url_attr; rewrite Lg, S2, R0; reflexivity).
    destruct D as [[E _]|(s & _ & Q)]; [|congruence]. subst hv0.
    eapply U3; [exact Hkv|exact Lk|exact S1|]. rewrite Ht. apply Fk. eapply guard_holds_In; eassumption. }
  destruct (force_link_rel p) as [|tk tks] eqn:Ef.
  { assert (a = a4) as -> by congruence. split; [exact ND4|]. split; [exact P4|]. split; [exact G4|]. intros _ Q. contradiction Q. }
  assert (Ea : a = merge_rel (force_link_rel p) name a4) by (rewrite Ef; congruence). clear H4.
  destruct (str_eqb_spec (lower name) (u "a")) as [Hn|Hn].
  - destruct (merge_rel_simple (force_link_rel p) name a4 L4 Hn) as [[E (v & Hv & Ev)]|E]; rewrite E in Ea; subst a.
    + split; [exact ND4|]. split; [exact P4|]. split; [exact G4|]. intros _ _. exists (rel_tokens a4). apply assoc_In. rewrite Hv, Ev. reflexivity.
    + set (nv := join [32] (fold_left add_token (force_link_rel p) (rel_tokens a4))) in *.
      assert (I5 : forall k v, In (k, v) (dict_set (u "rel") (Some nv) a4) -> (k = u "rel" /\ v = Some nv) \/ (In (k, v) a4 /\ k <> u "rel")).
      { intros k v Q. apply dict_set_In in Q. destruct Q as [Q|[Q N]]; [left; split; congruence|right; auto]. }
      split; [apply dict_set_NoDup; exact ND4|]. split; [|split].
      * intros k v Q. apply I5 in Q. destruct Q as [[-> ->]|[Q _]]; [|apply P4; exact Q]. split; [reflexivity|]. split; [right; repeat split; [exact Hn|rewrite Ef; discriminate]|].
        split; [|discriminate]. intros kind Hu. destruct (url_attribute_lower _ _ Hu) as (_ & _ & Q). contradiction Q. reflexivity.
      * intros t k kind g vals v hv Hg Ht Q1 Q2. exfalso. destruct Hg as [Hg|[Hg|[]]]; injection Hg as <- _ _ _ _; rewrite Hn in Ht; discriminate Ht.
      * intros _ _. exists (rel_tokens a4). fold nv. unfold dict_set. destruct (dict_has (u "rel") a4) eqn:Eh.
        -- apply dict_has_In in Eh. apply in_map_iff in Eh. destruct Eh as ([k v] & Ek & Hk). cbn [fst] in Ek. subst k. apply in_map_iff. exists (u "rel", v). split; [|exact Hk].
           cbn [fst]. rewrite str_eqb_refl. reflexivity.
        -- apply in_or_app. right. left. reflexivity.
  - rewrite merge_rel_other in Ea by exact Hn. subst a. split; [exact ND4|]. split; [exact P4|]. split; [exact G4|]. intros Q. contradiction.
Qed.
End Attrs.
