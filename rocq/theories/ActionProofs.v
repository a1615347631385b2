(* Proofs about ActionModel *)
From Coq Require Import NArith List Bool String Lia ZifyBool ZifyN ZifyNat.
From Verif Require Import Str StrFacts SanFacts SerializerModel UrlModel UrlSpec UrlProofs UrlHostProofs UrlIdemProofs UrlListProofs SanModel SanSpec SanAttrProofs SanDefaults GuardModel SkipModel AttrModel ActionModel.
Import ListNotations.
Open Scope list_scope.
Open Scope N_scope.

(* ---------- the tables of the default policies ---------- *)
Definition plain_attr_ok (up : url_policy) (t k : str) : bool :=
  (str_eqb t (u "a") && str_eqb k (u "href")) || (str_eqb t (u "img") && str_eqb k (u "src"))
  || (negb (is_sink_attr k) && match rule_for up t k with None => true | Some _ => false end).
Definition attr_name_ok (k : str) : bool := str_eqb (lower k) k && negb (str_eqb (strip k) []) && is_ascii k && negb (mem 107 k) && negb (str_eqb k []).
Definition tag_ok (p : policy) (t : str) : bool :=
  str_eqb (lower t) t && (if list_eq_dec (list_eq_dec N.eq_dec) (allowed_for (effective_allowed p) t) (action_attrs p t) then true else false)
  && forallb (fun k => plain_attr_ok (pol_url p) t k && attr_name_ok k) (action_attrs p t).
Lemma default_tags_ok p : default_like p -> forallb (tag_ok p) (allowed_tags p) = true.
Proof. intros [-> | ->]; vm_compute; reflexivity. Qed.
Lemma default_tag p t : default_like p -> In t (allowed_tags p) -> lower t = t /\ allowed_for (effective_allowed p) t = action_attrs p t
  /\ forall k, In k (action_attrs p t) -> plain_attr_ok (pol_url p) t k = true /\ attr_name_ok k = true.
Proof.
  intros D T. pose proof (default_tags_ok p D) as H. rewrite forallb_forall in H. specialize (H t T). unfold tag_ok in H.
  apply andb_true_iff in H as [H K]. apply andb_true_iff in H as [H1 H2]. split; [apply str_eqb_eq; exact H1|]. split.
  - destruct (list_eq_dec (list_eq_dec N.eq_dec) (allowed_for (effective_allowed p) t) (action_attrs p t)); [assumption|discriminate].
  - intros k I. rewrite forallb_forall in K. specialize (K k I). apply andb_true_iff in K. exact K.
Qed.

(* ---------- names ---------- *)
Lemma lower_of_folded k a : alow k = k -> lower k = a -> is_ascii a = true -> mem 107 a = false -> k = a.
Proof.
  intros A L I M. assert (IK : is_ascii k = true).
  { unfold is_ascii in *. apply forallb_forall. intros c C. destruct (is_ascii_char c) eqn:E; [reflexivity|exfalso]. unfold is_ascii_char in E.
    assert (S : forall d, In d (lower_c c) -> In d a) by (intros d Hd; rewrite <- L; apply in_flat_map; exists c; auto).
    rewrite forallb_forall in I. destruct (N.eq_dec c 304) as [->|N1].
    - specialize (I 775 (S 775 ltac:(rewrite lower_c_dotted_I; right; left; reflexivity))). discriminate.
    - destruct (N.eq_dec c 8490) as [->|N2].
      + specialize (S 107 ltac:(rewrite lower_c_kelvin; left; reflexivity)). apply mem_In in S. congruence.
      + destruct (lower_c_nonascii c) as (d & Ed & Ld); [lia|exact N1|exact N2|]. specialize (I d (S d ltac:(rewrite Ed; left; reflexivity))). unfold is_ascii_char in I. lia. }
  rewrite (lower_ascii _ IK), A in L. exact L.
Qed.

(* ---------- the allowlist ---------- *)
Definition keep (allowed : list str) (l : attr_list) : attr_list := filter (fun kv => in_strs (fst kv) allowed) l.
Lemma loop_keep i allowed l : (forall k, In k (map fst l) -> in_strs (lower k) allowed = in_strs k allowed /\ (in_strs k allowed = true -> strip k <> [])) ->
  forall out c, NoDup (map fst l) -> (forall k, In k (map fst l) -> ~ In k (map fst out)) -> exists c' f, allowlist_loop i allowed l out c = (out ++ keep allowed l, c', f)
    /\ (c' = false -> c = false /\ keep allowed l = l).
Proof.
  induction l as [|[k v] l IH]; intros H out c ND DJ.
  - exists c, []. cbn. rewrite app_nil_r. auto.
  - cbn [map fst] in ND. inversion ND; subst. cbn [allowlist_loop keep filter fst]. fold (keep allowed l).
    destruct (H k (or_introl eq_refl)) as [H1 H2'].
    assert (H' : forall k, In k (map fst l) -> in_strs (lower k) allowed = in_strs k allowed /\ (in_strs k allowed = true -> strip k <> [])) by (intros x Hx; apply H; right; exact Hx).
    assert (DJ' : forall k, In k (map fst l) -> ~ In k (map fst out)) by (intros x Hx; apply DJ; right; exact Hx).
    destruct (in_strs k allowed) eqn:E.
    + destruct (strip k) as [|a b] eqn:S; [exfalso; apply H2'; reflexivity|]. rewrite dict_set_new by (apply DJ; left; reflexivity).
      destruct (IH H' (out ++ [(k, v)]) c H3) as (c' & f & L & R).
      { intros x Hx Q. rewrite map_app in Q. apply in_app_or in Q. destruct Q as [Q|[Q|[]]]; [exact (DJ' x Hx Q)|]. cbn in Q. subst x. contradiction. }
      exists c', f. rewrite L, <- app_assoc. split; [reflexivity|]. intros C. destruct (R C) as [R1 R2]. split; [exact R1|]. rewrite R2. reflexivity.
    + rewrite H1. destruct (IH H' out true H3 DJ') as (c' & f & L & R). rewrite L. destruct (strip k); eexists; eexists; (split; [reflexivity|]); intros C; destruct (R C); discriminate.
Qed.
Lemma allowlist_keep p i t l : (forall k, In k (map fst l) -> in_strs (lower k) (allowed_for (effective_allowed p) t) = in_strs k (allowed_for (effective_allowed p) t)
    /\ (in_strs k (allowed_for (effective_allowed p) t) = true -> strip k <> [])) -> NoDup (map fst l) ->
  exists f, allowlist_attrs p i t l = Ok (keep (allowed_for (effective_allowed p) t) l) f.
Proof.
  intros H ND. unfold allowlist_attrs. set (allowed := allowed_for (effective_allowed p) t) in *.
  match goal with |- context [if ?x then Ok l [] else _] => destruct x eqn:Ef end.
  - exists []. f_equal. symmetry. unfold keep. clear -Ef. induction l as [|[k v] l IH]; [reflexivity|]. cbn [forallb fst] in Ef. apply andb_true_iff in Ef as [E1 E2].
    cbn [filter fst]. destruct k; [discriminate|]. rewrite E1, (IH E2). reflexivity.
  - destruct (loop_keep i allowed l H [] false ND ltac:(intros k _ [])) as (c' & f & L & R). rewrite L. exists f. destruct c'; [reflexivity|]. destruct (R eq_refl) as [_ R2]. rewrite R2. reflexivity.
Qed.

(* ---------- URLs ---------- *)
Lemma prepared_no_err py rule v ar : allowed_hosts rule = None -> sanitize_prepared py rule v HAllow ar None <> Err.
Proof.
  intros H. unfold sanitize_prepared. rewrite H. cbv zeta. repeat match goal with |- context [if ?x then _ else _] => destruct x | |- context [match ?x with _ => _ end] => destruct x end; discriminate.
Qed.
Lemma url_loop_some py up tag i all l : (forall k v, In (k, v) l -> url_attr py up tag all k v <> VErr) -> forall d s, exists r, url_loop py up tag i all l d s = Some r.
Proof.
  induction l as [|[k v] l IH]; intros H d s; cbn [url_loop]; [eauto|]. assert (H' : forall k v, In (k, v) l -> url_attr py up tag all k v <> VErr) by (intros x y I; apply H; right; exact I).
  pose proof (H k v (or_introl eq_refl)) as H0. destruct (url_attr py up tag all k v) as [|m|x|]; [apply IH; exact H'| | |congruence].
  - destruct (IH H' (d ++ [k]) s) as [[[d1 s1] f1] E]. rewrite E. eauto.
  - destruct (negb (str_eqb k (lower k))); [apply IH; exact H'|]. destruct (match v with Some v0 => _ | None => _ end); apply IH; exact H'.
Qed.
Lemma assoc_urls p t k : in_strs k (action_attrs p t) = true -> assoc k (action_urls p t) = url_action (pol_url p) t k.
Proof.
  unfold action_urls. induction (action_attrs p t) as [|a l IH]; [discriminate|]. cbn [in_strs existsb flat_map]. intros H.
  destruct (str_eqb_spec k a) as [->|N].
  - destruct (url_action (pol_url p) t a) as [x|] eqn:E; cbn [app assoc]; [rewrite str_eqb_refl; reflexivity|].
    destruct (existsb (str_eqb a) l) eqn:El; [apply IH; exact El|]. clear -El E.
    induction l as [|b l IH]; [reflexivity|]. cbn [existsb] in El. apply orb_false_iff in El as [E1 E2]. cbn [flat_map].
    destruct (url_action (pol_url p) t b); cbn [app assoc]; [rewrite E1|]; apply IH; exact E2.
  - cbn [orb] in H. destruct (url_action (pol_url p) t a); cbn [app assoc]; [apply str_eqb_neq in N; rewrite N|]; apply IH; exact H.
Qed.
Lemma strip_value_eq p v : pol_strip_invisible p = true -> (if pol_strip_invisible p && negb (is_ascii v) then strip_invisible v else v) = strip_invisible v.
Proof. intros ->. destruct (is_ascii v) eqn:E; [symmetry; apply strip_invisible_ascii; exact E|reflexivity]. Qed.

(* what the short check for URLs and the full one agree on (C20) *)
Definition plain_url (v : str) : Prop := ~ In 92 v /\ (starts (u "//") (normalize_url (Str.strip v)) = true -> ~ In 32 (Str.strip v)).

Definition default_facts p : default_like p -> pol_strip_invisible p = true /\ allowed_css p = [] /\ pol_url p = default_url_policy.
Proof. intros [-> | ->]; repeat split. Qed.

(* one allowed attribute: the two ways agree *)
Lemma one_attr py p scripting t k v : default_like p -> In t (allowed_tags p) -> In k (action_attrs p t) ->
  (is_sink_attr k = true -> plain_url (strip_invisible v)) ->
  exists o, action_value py p (compile_action p scripting t) k v = o /\ o <> Err
    /\ forall all, url_attr py (pol_url p) t all k (Some (strip_invisible v)) =
         match o with
         | Drop => VDrop (u "Unsafe URL in attribute '" ++ k ++ u "'")
         | Keep s => if is_sink_attr k then VSet s else VLeave
         | Err => VErr
         end
    /\ (is_sink_attr k = false -> o = Keep (strip_invisible v)).
Proof.
  intros D T K PU. destruct (default_tag p t D T) as (LT & AF & AK). destruct (AK k K) as [PA NA]. destruct (default_facts p D) as (F1 & F2 & F3).
  unfold attr_name_ok in NA. repeat (apply andb_true_iff in NA as [NA ?]). apply str_eqb_eq in NA.
  eexists. split; [reflexivity|]. unfold action_value, checked, visible. rewrite (strip_value_eq p v F1).
  change (a_urls (compile_action p scripting t)) with (action_urls p t). change (a_name (compile_action p scripting t)) with t.
  rewrite (assoc_urls p t k) by (apply in_strs_In; exact K). set (w := strip_invisible v) in *.
  unfold plain_attr_ok in PA. unfold url_attr. rewrite NA, F3 in *.
  assert (GO : forall rule kind, rule_for default_url_policy t k = Some rule -> is_sink_attr k = true -> (forall all, sink_kind_for t k all = Some KUrl) -> kind = KUrl ->
     allowed_hosts rule = None -> r_handling rule = Some HAllow -> r_proxy rule = None -> r_allow_relative rule = None ->
     let o := match match Some true with Some ar => url_fast w rule ar | None => None end with Some o => o | None => sanitize_sink py default_url_policy rule t k kind w end in
     o <> Err /\ sanitize_sink py default_url_policy rule t k KUrl w = o).
  { intros rule kind R S SK -> AH RH RP RA. assert (Q : sanitize_sink py default_url_policy rule t k KUrl w = sanitize_url_value py rule w t k HAllow true None None).
    { unfold sanitize_sink, sanitize_simple_sink, effective_handling, effective_allow_relative, effective_proxy. rewrite RH, RP, RA. reflexivity. }
    assert (NE : sanitize_url_value py rule w t k HAllow true None None <> Err) by (apply prepared_no_err; exact AH).
    cbv zeta. rewrite Q. destruct (url_fast w rule true) as [o|] eqn:E; [|auto]. destruct (PU S) as [P1 P2].
    pose proof (c20 py rule w t k true None o AH P1 P2 E) as C. rewrite C in *. auto. }
  destruct (str_eqb t (u "a") && str_eqb k (u "href"))%bool eqn:B1.
  { apply andb_true_iff in B1 as [B1 B2]. apply str_eqb_eq in B1, B2. subst t k. destruct (GO default_a_href KUrl) as [G1 G2]; try reflexivity. unfold url_action.
       change (rule_for default_url_policy (u "a") (u "href")) with (Some default_a_href).
       change (is_sink_attr (u "href")) with true in *. cbv iota. change (sink_kind_for (u "a") (u "href") [(u "href", Some [])]) with (Some KUrl). cbv iota zeta.
       change (true && fast_eligible default_url_policy default_a_href)%bool with true. cbv iota. change (effective_allow_relative default_url_policy default_a_href) with true.
       split; [exact G1|]. intros all. split; [|intros Q; discriminate Q].
       change (negb true && _)%bool with false. change (sink_kind_for (u "a") (u "href") all) with (Some KUrl). cbv iota.
       destruct (url_fast w default_a_href true) as [o'|]; [rewrite G2; destruct o'; reflexivity|destruct (sanitize_sink py default_url_policy default_a_href (u "a") (u "href") KUrl w); reflexivity]. }
  destruct (str_eqb t (u "img") && str_eqb k (u "src"))%bool eqn:B3.
  { apply andb_true_iff in B3 as [B3 B4]. apply str_eqb_eq in B3, B4. subst t k; destruct (GO default_img_src KUrl) as [G1 G2]; try reflexivity; unfold url_action;
       change (rule_for default_url_policy (u "img") (u "src")) with (Some default_img_src);
       change (is_sink_attr (u "src")) with true in *; cbv iota; change (sink_kind_for (u "img") (u "src") [(u "src", Some [])]) with (Some KUrl); cbv iota zeta;
       change (true && fast_eligible default_url_policy default_img_src)%bool with true; cbv iota; change (effective_allow_relative default_url_policy default_img_src) with true;
       split; [exact G1|]; intros all; split; [|intros Q; discriminate Q];
       change (negb true && _)%bool with false; change (sink_kind_for (u "img") (u "src") all) with (Some KUrl); cbv iota;
       destruct (url_fast w default_img_src true) as [o'|]; [rewrite G2; destruct o'; reflexivity|destruct (sanitize_sink py default_url_policy default_img_src (u "img") (u "src") KUrl w); reflexivity]. }
  cbn [orb] in PA. apply andb_true_iff in PA as [PA1 PA2]; unfold url_action; destruct (rule_for default_url_policy t k) eqn:R; [discriminate PA2|];
    apply negb_true_iff in PA1; rewrite PA1; cbn [negb andb]; split; [discriminate|]; intros all; split; reflexivity.
Qed.

(* ---------- all attributes of a tag ---------- *)
Definition somes (l : list (str * str)) : attr_list := map (fun kv => (fst kv, Some (snd kv))) l.
Definition stripped (l : list (str * str)) : attr_list := map (fun kv => (fst kv, Some (strip_invisible (snd kv)))) l.
Lemma strip_attrs_somes i l : fst (strip_attrs i (somes l)) = stripped l.
Proof. unfold strip_attrs, somes, stripped. cbn [fst]. rewrite map_map. reflexivity. Qed.
Lemma stripped_keys l : map fst (stripped l) = map fst l.
Proof. unfold stripped. rewrite map_map. reflexivity. Qed.
Lemma keep_keys a l k : In k (map fst (keep a l)) -> In k (map fst l) /\ In k a.
Proof. intros H. apply in_map_iff in H. destruct H as (x & <- & H). apply filter_In in H. destruct H as [H1 H2]. split; [apply in_map; exact H1|apply in_strs_In; exact H2]. Qed.
Lemma keep_NoDup a l : NoDup (map fst l) -> NoDup (map fst (keep a l)).
Proof.
  induction l as [|[k v] l IH]; cbn [keep filter map fst]; [auto|]. intros H. inversion H; subst. fold (keep a l). destruct (in_strs k a); cbn [map fst]; [|auto].
  constructor; [|auto]. intros Q. apply keep_keys in Q. apply H2, Q.
Qed.
Lemma keep_In a l x : In x (keep a l) -> In x l /\ In (fst x) a.
Proof. intros H. apply filter_In in H. destruct H as [H1 H2]. split; [exact H1|apply in_strs_In; exact H2]. Qed.
Lemma stripped_In k v l : In (k, v) (stripped l) -> exists w, In (k, w) l /\ v = Some (strip_invisible w).
Proof. unfold stripped. intros H. apply in_map_iff in H. destruct H as ([k' w] & E & H). injection E as <- <-. exists w. auto. Qed.

Lemma sink_names p t k : default_like p -> In t (allowed_tags p) -> In k (action_attrs p t) -> is_sink_attr k = true -> k = u "href" \/ k = u "src".
Proof.
  intros D T K S. destruct (default_tag p t D T) as (_ & _ & AK). destruct (AK k K) as [PA _]. unfold plain_attr_ok in PA. rewrite S in PA. cbn [negb andb] in PA.
  rewrite orb_false_r in PA. apply orb_true_iff in PA as [PA|PA]; apply andb_true_iff in PA as [_ PA]; apply str_eqb_eq in PA; auto.
Qed.

Lemma known_allowed p scripting t : In t (allowed_tags p) -> plan_action p scripting t = Some (compile_action p scripting t).
Proof. intros H. unfold plan_action. replace (in_strs t (known_tags p scripting)) with true; [reflexivity|]. symmetry. apply in_strs_In. unfold known_tags. apply in_or_app. left. exact H. Qed.

Theorem same_attributes py p scripting i t attrs : default_like p -> In t (allowed_tags p) -> NoDup (map fst attrs) -> (forall k, In k (map fst attrs) -> alow k = k) ->
  (forall k v, In (k, v) attrs -> k = u "href" \/ k = u "src" -> plain_url (strip_invisible v)) ->
  exists d fs, sanitize_parsed_attrs py p (plan_action p scripting t) attrs = Some d /\ edit_attrs py p i t (fst (strip_attrs i (somes attrs))) = Ok (somes d) fs.
Proof.
  intros D T ND FO PU. rewrite (known_allowed p scripting t T). destruct (default_tag p t D T) as (LT & AF & AK). destruct (default_facts p D) as (F1 & F2 & F3).
  assert (PU' : forall k v, In (k, v) attrs -> In k (action_attrs p t) -> is_sink_attr k = true -> plain_url (strip_invisible v)) by (intros k v I K S; apply (PU k v I), (sink_names p t k D T K S)).
  unfold sanitize_parsed_attrs. change (a_allowed (compile_action p scripting t)) with (in_strs t (allowed_tags p)).
  replace (in_strs t (allowed_tags p)) with true by (symmetry; apply in_strs_In; exact T).
  rewrite strip_attrs_somes. set (at_ := action_attrs p t) in *.
  assert (AL : forall k, In k (map fst (stripped attrs)) -> in_strs (lower k) (allowed_for (effective_allowed p) t) = in_strs k (allowed_for (effective_allowed p) t)
    /\ (in_strs k (allowed_for (effective_allowed p) t) = true -> strip k <> [])).
  { rewrite AF, stripped_keys. intros k I. split.
    - destruct (in_strs k at_) eqn:E.
      + apply in_strs_In in E. destruct (AK k E) as [_ NA]. unfold attr_name_ok in NA. repeat (apply andb_true_iff in NA as [NA ?]). apply str_eqb_eq in NA. rewrite NA. apply in_strs_In. exact E.
      + destruct (in_strs (lower k) at_) eqn:E2; [|reflexivity]. exfalso. apply in_strs_In in E2. destruct (AK _ E2) as [_ NA]. unfold attr_name_ok in NA.
        repeat (apply andb_true_iff in NA as [NA ?]). rewrite (lower_of_folded k (lower k) (FO k I) eq_refl) in E; [|assumption|apply negb_true_iff; assumption].
        apply in_strs_In in E2. congruence.
    - intros E. apply in_strs_In in E. destruct (AK k E) as [_ NA]. unfold attr_name_ok in NA. repeat (apply andb_true_iff in NA as [NA ?]).
      intros Q. rewrite Q in *. discriminate. }
  destruct (allowlist_keep p i t (stripped attrs) AL) as [f1 E1]; [rewrite stripped_keys; exact ND|]. rewrite AF in E1. fold at_ in E1.
  set (b := keep at_ (stripped attrs)) in *.
  assert (NB : NoDup (map fst b)) by (apply keep_NoDup; rewrite stripped_keys; exact ND).
  assert (LK : lower_keys b).
  { intros k I. apply keep_keys in I. destruct I as [_ I]. destruct (AK k I) as [_ NA]. unfold attr_name_ok in NA. repeat (apply andb_true_iff in NA as [NA ?]). apply str_eqb_eq. exact NA. }
  assert (UB : forall k v, In (k, v) b -> exists w, In (k, w) attrs /\ In k at_ /\ v = Some (strip_invisible w)).
  { intros k v I. apply keep_In in I. destruct I as [I K]. apply stripped_In in I. destruct I as (w & I & ->). exists w. auto. }
  assert (NE : forall k v, In (k, v) b -> url_attr py (pol_url p) t b k v <> VErr).
  { intros k v I. destruct (UB k v I) as (w & I1 & I2 & ->). destruct (one_attr py p scripting t k w D T I2 (PU' k w I1 I2)) as (o & _ & O & U & _).
    rewrite U. destruct o; [discriminate|destruct (is_sink_attr k); discriminate|congruence]. }
  destruct (url_loop_some py (pol_url p) t i b b NE [] []) as [[[d0 s0] f2] EL].
  assert (E2 : exists c f, drop_url_attrs py (pol_url p) i t b = Ok c f) by (unfold drop_url_attrs; rewrite LT, EL; eauto). destruct E2 as (c & f3 & E2).
  destruct (drop_url_simple py p i t b c f3 LK NB E2) as [EC _]. rewrite LT in EC.
  assert (G : forall l, (forall x, In x l -> In x attrs) -> exists d, sanitize_attrs py p (compile_action p scripting t) l = Some d /\ somes d =
     flat_map (fun kv => match url_attr py (pol_url p) t b (fst kv) (snd kv) with VDrop _ => [] | VSet s => [(fst kv, Some s)] | _ => [kv] end) (keep at_ (stripped l))).
  { induction l as [|[k v] l IH]; intros Sub; [exists []; split; reflexivity|]. destruct (IH (fun x Hx => Sub x (or_intror Hx))) as (d & Ed & Es).
    cbn [sanitize_attrs stripped map keep filter fst snd]. fold (stripped l). fold (keep at_ (stripped l)). change (a_attrs (compile_action p scripting t)) with at_.
    destruct (in_strs k at_) eqn:E; cbn [negb]; [|exists d; auto]. apply in_strs_In in E. pose proof (Sub _ (or_introl eq_refl)) as I.
    destruct (one_attr py p scripting t k v D T E (PU' k v I E)) as (o & Ho & O & U & N). rewrite Ho. cbn [flat_map fst snd]. rewrite U.
    destruct o as [|s|]; [exists d; auto| |congruence].
    rewrite Ed. cbn [option_map]. exists ((k, s) :: d). split; [reflexivity|]. cbn [somes map fst snd]. fold (somes d). rewrite Es.
    destruct (is_sink_attr k) eqn:S; [reflexivity|]. specialize (N eq_refl). injection N as ->. reflexivity. }
  destruct (G attrs (fun x H => H)) as (d & Gd & Gs). exists d. eexists. split; [exact Gd|].
  unfold edit_attrs. rewrite E1. cbn [bind]. rewrite E2. cbn [bind]. rewrite F2. rewrite EC. unfold url_result. rewrite Gs. fold b. reflexivity.
Qed.

(* ---------- reading and checking in one pass ---------- *)
Lemma sanitize_fused py p a : a_allowed a = true -> forall attrs d, sanitize_attrs py p a attrs = Some d -> AttrModel.sanitize_parsed (visible p) (reading py p a) attrs = d.
Proof.
  intros _. induction attrs as [|[k v] l IH]; intros d E; cbn [sanitize_attrs AttrModel.sanitize_parsed] in *; [congruence|].
  change (AttrModel.allowed (reading py p a)) with (a_attrs a). change (AttrModel.url (reading py p a) k (visible p v)) with (match action_value py p a k v with Keep w => Some w | _ => None end).
  destruct (in_strs k (a_attrs a)); cbn [negb] in *; [|exact (IH d E)].
  destruct (action_value py p a k v) as [|w|]; [exact (IH d E)| |discriminate]. destruct (sanitize_attrs py p a l) as [d'|]; [|discriminate]. injection E as <-. rewrite (IH d' eq_refl). reflexivity.
Qed.
Lemma alow_c_folded c d : In d (lower_c c) -> alow_c d = d.
Proof.
  intros H. pose proof (SanIdemProofs.lower_c_idem c d H) as E. destruct (d <? 128) eqn:L.
  - rewrite lower_c_ascii in E by lia. congruence.
  - unfold alow_c, is_upper_ascii. replace ((65 <=? d) && (d <=? 90))%bool with false by lia. reflexivity.
Qed.
Lemma alow_fold strict x : alow (AttrModel.fold_key strict x) = AttrModel.fold_key strict x.
Proof.
  assert (G : forall s, (forall d, In d s -> alow_c d = d) -> alow (replace_char 0 [65533] s) = replace_char 0 [65533] s).
  { intros s H. unfold alow, replace_char. rewrite <- (map_id (flat_map _ s)) at 2. apply map_ext_in. intros d I. apply in_flat_map in I. destruct I as (c & I & J).
    destruct (c =? 0); destruct J as [<-|[]]; [reflexivity|apply H, I]. }
  unfold AttrModel.fold_key. apply G. intros d I. destruct strict.
  - unfold alow in I. apply in_map_iff in I. destruct I as (c & <- & _). unfold alow_c, is_upper_ascii. destruct ((65 <=? c) && (c <=? 90))%bool eqn:E; [|rewrite E; reflexivity].
    replace ((65 <=? c + 32) && (c + 32 <=? 90))%bool with false by lia. reflexivity.
  - unfold lower in I. apply in_flat_map in I. destruct I as (c & _ & I). exact (alow_c_folded c d I).
Qed.
Lemma names_stable p t strict x : default_like p -> In t (allowed_tags p) -> In x (action_attrs p t) -> AttrModel.fold_key strict x = x.
Proof.
  intros D T I. assert (G : forallb (fun t => forallb (fun x => str_eqb (AttrModel.fold_key strict x) x) (action_attrs p t)) (allowed_tags p) = true).
  { destruct D as [-> | ->], strict; vm_compute; reflexivity. }
  rewrite forallb_forall in G. specialize (G t T). rewrite forallb_forall in G. apply str_eqb_eq, G, I.
Qed.

(* ---------- what is kept is safe, whatever the value ---------- *)
Definition schemes_of (t : str) : list str := if str_eqb t (u "a") then map u ["http"; "https"; "mailto"; "tel"]%string else [].
Definition safe_url (t s : str) : Prop := (forall x, browser_scheme s = Some x -> In x (schemes_of t)) /\ ~ protocol_relative s.
Lemma checked_safe py p scripting t k v s : default_like p -> In t (allowed_tags p) -> In k (action_attrs p t) -> k = u "href" \/ k = u "src" ->
  checked py p (compile_action p scripting t) k v = Keep s -> safe_url t s.
Proof.
  intros D T K HS. destruct (default_tag p t D T) as (_ & _ & AK). destruct (AK k K) as [PA _]. destruct (default_facts p D) as (F1 & F2 & F3).
  unfold checked. change (a_urls (compile_action p scripting t)) with (action_urls p t). change (a_name (compile_action p scripting t)) with t.
  rewrite (assoc_urls p t k) by (apply in_strs_In; exact K). unfold plain_attr_ok in PA. rewrite F3.
  assert (GO : forall rule, (forall s, In s (allowed_schemes rule) -> valid_scheme s) -> allowed_schemes rule = schemes_of t ->
     effective_handling default_url_policy rule = HAllow ->
     match match Some true with Some ar => url_fast v rule ar | None => None end with Some o => o | None => sanitize_sink py default_url_policy rule t k KUrl v end = Keep s -> safe_url t s).
  { intros rule V SC H. destruct (url_fast v rule true) as [o|] eqn:E.
    - intros ->. destruct (fast_safe rule v true s V E) as [G1 G2]. split; [|exact G2]. intros x X. rewrite <- SC. exact (G1 x X).
    - unfold sanitize_sink, sanitize_simple_sink. rewrite H. intros Q. split; [|exact (c14 _ _ _ _ _ _ _ _ _ V Q)].
      intros x X. rewrite <- SC. exact (c12 _ _ _ _ _ _ _ _ _ _ V Q X). }
  destruct (str_eqb t (u "a") && str_eqb k (u "href"))%bool eqn:B1.
  { apply andb_true_iff in B1 as [B1 B2]. apply str_eqb_eq in B1, B2. subst t k. unfold url_action.
    change (rule_for default_url_policy (u "a") (u "href")) with (Some default_a_href).
    change (is_sink_attr (u "href")) with true. cbv iota. change (sink_kind_for (u "a") (u "href") [(u "href", Some [])]) with (Some KUrl). cbv iota zeta.
    change (true && fast_eligible default_url_policy default_a_href)%bool with true. cbv iota. change (effective_allow_relative default_url_policy default_a_href) with true.
    apply GO; [|reflexivity|reflexivity]. intros x [<-|[<-|[<-|[<-|[]]]]]; [exists 104, (u "ttp")|exists 104, (u "ttps")|exists 109, (u "ailto")|exists 116, (u "el")]; repeat split. }
  destruct (str_eqb t (u "img") && str_eqb k (u "src"))%bool eqn:B3.
  { apply andb_true_iff in B3 as [B3 B4]. apply str_eqb_eq in B3, B4. subst t k. unfold url_action.
    change (rule_for default_url_policy (u "img") (u "src")) with (Some default_img_src).
    change (is_sink_attr (u "src")) with true. cbv iota. change (sink_kind_for (u "img") (u "src") [(u "src", Some [])]) with (Some KUrl). cbv iota zeta.
    change (true && fast_eligible default_url_policy default_img_src)%bool with true. cbv iota. change (effective_allow_relative default_url_policy default_img_src) with true.
    apply GO; [intros x []|reflexivity|reflexivity]. }
  cbn [orb] in PA. apply andb_true_iff in PA as [PA1 _]. apply negb_true_iff in PA1. destruct HS as [-> | ->]; vm_compute in PA1; discriminate PA1.
Qed.
Lemma attrs_allowed p t k : default_like p -> In t (allowed_tags p) -> In k (action_attrs p t) -> attr_allowed p t k.
Proof.
  intros D T K. destruct (default_tag p t D T) as (_ & AF & _). rewrite <- AF in K. clear AF.
  assert (G : forallb (fun t => forallb (fun k => existsb (fun e => (str_eqb (fst e) [42] || str_eqb (fst e) t) && in_strs k (snd e)) (allowed_attributes p)) (allowed_for (effective_allowed p) t)) (allowed_tags p) = true).
  { destruct D as [-> | ->]; vm_compute; reflexivity. }
  rewrite forallb_forall in G. specialize (G t T). rewrite forallb_forall in G. specialize (G k K). apply existsb_exists in G. destruct G as ([n l] & I & G).
  cbn [fst snd] in G. apply andb_true_iff in G as [G1 G2].
  left. exists n, l. split; [|split; [exact I|apply in_strs_In; exact G2]]. apply orb_true_iff in G1 as [G1|G1]; apply str_eqb_eq in G1; [left|right; left]; exact G1.
Qed.
Lemma sanitize_In py p a : forall attrs d, sanitize_attrs py p a attrs = Some d -> forall k s, In (k, s) d -> In k (a_attrs a) /\ exists v, In (k, v) attrs /\ checked py p a k (visible p v) = Keep s.
Proof.
  induction attrs as [|[k v] l IH]; intros d E k' s I; cbn [sanitize_attrs] in E; [injection E as <-; destruct I|].
  destruct (in_strs k (a_attrs a)) eqn:K; cbn [negb] in E.
  - unfold action_value in E. destruct (checked py p a k (visible p v)) as [|w|] eqn:C; [|destruct (sanitize_attrs py p a l) as [d'|] eqn:E'; [injection E as <-|discriminate]|discriminate].
    + destruct (IH d E k' s I) as (G1 & w & G2 & G3). split; [exact G1|]. exists w. split; [right; exact G2|exact G3].
    + destruct I as [I|I].
      * injection I as <- <-. split; [apply in_strs_In; exact K|]. exists v. split; [left; reflexivity|exact C].
      * destruct (IH d' eq_refl k' s I) as (G1 & w' & G2 & G3). split; [exact G1|]. exists w'. split; [right; exact G2|exact G3].
  - destruct (IH d E k' s I) as (G1 & w & G2 & G3). split; [exact G1|]. exists w. split; [right; exact G2|exact G3].
Qed.
