(* C25: a clean tree is left alone. *)
From Coq Require Import Lia ZifyBool ZifyN.
From Verif Require Import Str StrFacts RawTextSpec SerializerModel SerRawProofs UrlModel UrlListProofs CssModel CssFinal SanModel SanSpec SanFacts SanFuel SanProofs SanAttrProofs SanTreeProofs SanDropProofs SanContentProofs SanCleanProofs.
Open Scope N_scope.

Lemma in_strs_not x l : in_strs x l = false <-> ~ In x l.
Proof. rewrite <- in_strs_In. destruct (in_strs x l); split; congruence. Qed.
Lemma assoc_dict_set {A} k (v : A) t l : assoc t (dict_set k v l) = if str_eqb t k then Some v else assoc t l.
Proof.
  unfold dict_set. destruct (dict_has k l) eqn:Eh.
  - induction l as [|[k' v'] l IH]; [discriminate Eh|]. cbn [map fst assoc]. cbn [dict_has existsb fst] in Eh.
    destruct (str_eqb_spec k k') as [<-|Hk]; cbn [assoc].
    + destruct (str_eqb_spec t k) as [->|Ht]; [reflexivity|].
      clear IH Eh. induction l as [|[k2 v2] l IH]; [reflexivity|]. cbn [map fst assoc]. destruct (str_eqb_spec k k2) as [<-|H2]; cbn [assoc].
      * destruct (str_eqb_spec t k); [contradiction|]. exact IH.
      * destruct (str_eqb_spec t k2); [reflexivity|exact IH].
    + cbn [orb] in Eh. destruct (str_eqb_spec t k') as [->|Ht]; [|exact (IH Eh)]. destruct (str_eqb_spec k' k); [congruence|reflexivity].
  - induction l as [|[k' v'] l IH]; cbn [app assoc].
    + destruct (str_eqb_spec t k); reflexivity.
    + cbn [dict_has existsb fst] in Eh. apply Bool.orb_false_iff in Eh. destruct Eh as [E1 E2].
      destruct (str_eqb_spec t k') as [->|Ht]; [|exact (IH E2)]. destruct (str_eqb_spec k' k) as [->|]; [rewrite str_eqb_refl in E1; discriminate E1|reflexivity].
Qed.

Section CleanFinal.
Variable py : urllib.
Variable p : policy.
Hypothesis Hv : valid_policy p.
Hypothesis Hd : dict_policy p.

Lemma allowed_for_star L name k g : assoc [42] L = Some g -> In k g -> In k (allowed_for L name).
Proof.
  intros E Hk. unfold allowed_for. rewrite E.
  destruct (str_eqb name [42]); [|destruct (assoc name L); cbn [option_map]; [apply in_or_app; left; exact Hk|]];
  (destruct (str_eqb (lower name) [42]); [exact Hk|]; destruct (assoc (lower name) L); cbn [option_map]; [apply in_or_app; left; exact Hk|exact Hk]).
Qed.
Lemma allowed_for_name L name k l : assoc name L = Some l -> In k l -> In k (allowed_for L name).
Proof.
  intros E Hk. destruct (str_eqb_spec name [42]) as [->|Hn]; [eapply allowed_for_star; eassumption|].
  unfold allowed_for. destruct (str_eqb_spec name [42]); [contradiction|]. rewrite E. cbn [option_map]. apply in_or_app. right. exact Hk.
Qed.
Lemma effective_assoc t l : assoc t (allowed_attributes p) = Some l -> exists l', assoc t (effective_allowed p) = Some l' /\ incl l l'.
Proof.
  intros E. unfold effective_allowed. destruct (force_link_rel p) as [|f fr]; [exists l; split; [exact E|apply incl_refl]|].
  match goal with |- context [if ?b then _ else _] => destruct b end; [|exists l; split; [exact E|apply incl_refl]].
  rewrite assoc_dict_set. destruct (str_eqb_spec t (u "a")) as [->|]; [|exists l; split; [exact E|apply incl_refl]].
  rewrite E. eexists; split; [reflexivity|]. intros x Hx. right. exact Hx.
Qed.
Lemma effective_rel : force_link_rel p <> [] -> In (u "rel") (allowed_for (effective_allowed p) (u "a")).
Proof.
  intros Hf. unfold effective_allowed. destruct (force_link_rel p) as [|f fr]; [congruence|].
  destruct (in_strs (u "rel") (match assoc (u "a") (allowed_attributes p) with Some l => l | None => [] end)) eqn:E1; cbn [negb andb].
  - destruct (assoc (u "a") (allowed_attributes p)) as [l|] eqn:E; [|discriminate E1]. apply in_strs_In in E1. eapply allowed_for_name; eassumption.
  - destruct (in_strs (u "rel") (match assoc [42] (allowed_attributes p) with Some l => l | None => [] end)) eqn:E2; cbn [negb andb].
    + destruct (assoc [42] (allowed_attributes p)) as [l|] eqn:E; [|discriminate E2]. apply in_strs_In in E2. eapply allowed_for_star; eassumption.
    + eapply allowed_for_name; [rewrite assoc_dict_set, str_eqb_refl; reflexivity|left; reflexivity].
Qed.
Lemma clean_allowed name k :
  (exists t l, (t = u "*" \/ t = name) /\ In (t, l) (allowed_attributes p) /\ In k l) \/ (k = u "rel" /\ name = u "a" /\ force_link_rel p <> []) ->
  k <> [] /\ In k (allowed_for (effective_allowed p) name).
Proof.
  destruct Hd as (D1 & _ & D3). intros [(t & l & Ht & Hl & Hk)|(-> & -> & Hf)].
  - split; [eapply D3; eassumption|]. destruct (effective_assoc t l (assoc_NoDup _ _ _ D1 Hl)) as (l' & El' & Il). destruct Ht as [->| ->].
    + eapply allowed_for_star; [exact El'|auto].
    + eapply allowed_for_name; [exact El'|auto].
  - split; [discriminate|apply effective_rel; exact Hf].
Qed.

(* ---- URLs ---- *)
Lemma get_rule_None tag key l : get_rule tag key l = None -> forall r, ~ In (tag, key, r) l.
Proof.
  induction l as [|[[t k] r0] l IH]; intros H r; [intros []|]. cbn [get_rule] in H. destruct (str_eqb tag t && str_eqb key k) eqn:E; [discriminate H|].
  intros [Q|Q]; [|exact (IH H r Q)]. injection Q as -> -> ->. rewrite !str_eqb_refl in E. discriminate E.
Qed.
Lemma rule_for_rule_of name k r : rule_for (pol_url p) (lower name) k = Some r -> rule_of p name k r.
Proof.
  unfold rule_for. destruct (get_rule (lower name) k (allow_rules (pol_url p))) as [r0|] eqn:E.
  - intros H. assert (r0 = r) as -> by congruence. left. apply get_rule_In. exact E.
  - intros H. right. split; [apply get_rule_None; exact E|]. apply get_rule_In. exact H.
Qed.
Lemma rule_of_unique name k r r' : rule_of p name k r -> rule_of p name k r' -> r = r'.
Proof.
  destruct Hd as (_ & D2 & _). assert (G : forall x y z, In (x, y, z) (allow_rules (pol_url p)) -> forall z', In (x, y, z') (allow_rules (pol_url p)) -> z = z').
  { intros x y z A z' B. revert A B. generalize (allow_rules (pol_url p)) D2. intros l ND. induction l as [|[k0 v0] l IH]; [intros []|].
    cbn [map fst] in ND. apply NoDup_cons_iff in ND. destruct ND as [N1 N2]. intros [A|A] [B|B].
    - congruence.
    - exfalso. apply N1. injection A as -> ->. apply in_map_iff. exists (x, y, z'). auto.
    - exfalso. apply N1. injection B as -> ->. apply in_map_iff. exists (x, y, z). auto.
    - exact (IH N2 A B). }
  intros [A|[A1 A2]] [B|[B1 B2]]; [eapply G; eassumption| | |eapply G; eassumption].
  - contradiction (B1 r A).
  - contradiction (A1 r' B).
Qed.
Lemma rule_of_rule_for name k r : rule_of p name k r -> rule_for (pol_url p) (lower name) k = Some r.
Proof.
  intros H. destruct (rule_for (pol_url p) (lower name) k) as [r0|] eqn:E.
  - f_equal. eapply rule_of_unique; [|exact H]. apply rule_for_rule_of. exact E.
  - exfalso. unfold rule_for in E. destruct (get_rule (lower name) k _) as [r0|] eqn:E1; [discriminate E|]. destruct H as [H|[_ H]].
    + exact (get_rule_None _ _ _ E1 _ H).
    + exact (get_rule_None _ _ _ E _ H).
Qed.
Lemma guard_holds_inv g vals (l : attr_list) : lower_keys l -> guard_holds g vals l = true -> exists hv, In (g, Some hv) l /\ In (lower (strip hv)) vals.
Proof.
  induction l as [|[k v] l IH]; intros LK H; [discriminate H|]. cbn [guard_holds] in H. assert (LK' : lower_keys l) by (intros x Hx; apply LK; right; exact Hx).
  destruct v as [v|]; [|destruct (IH LK' H) as (hv & A & B); exists hv; split; [right; exact A|exact B]].
  rewrite (LK k (or_introl eq_refl)) in H. destruct (str_eqb_spec k g) as [->|Hk].
  - apply in_strs_In in H. exists v. split; [left; reflexivity|exact H].
  - destruct (IH LK' H) as (hv & A & B). exists hv. split; [right; exact A|exact B].
Qed.
(* every entry of the sink table is an entry of the specification's tables *)
Definition always_table : list (sink_kind * str * str) := map (fun s => (snd s, [42], fst s)) url_attributes.
Lemma sinks_split : forall k t a g, In (k, t, a, g) url_sinks ->
  (g = None /\ In (a, k) url_attributes /\ t = [42]) \/ (exists ga vals, g = Some (ga, vals) /\ In (t, a, k, ga, vals) guarded_url_attributes /\ t <> [42]).
Proof.
  intros k t a g H. cbn in H.
  repeat (destruct H as [H|H]; [injection H as <- <- <- <-; first [left; split; [reflexivity|]; split; [cbn; tauto|reflexivity] | right; eexists; eexists; split; [reflexivity|]; split; [cbn; tauto|discriminate]]|]). destruct H.
Qed.
Lemma sink_kind_url name (l : attr_list) k kind : lower_keys l -> sink_kind_for (lower name) k l = Some kind -> url_kind p name l k kind.
Proof.
  intros LK. unfold sink_kind_for. assert (G : forall s, incl s url_sinks -> sink_kind_in s (lower name) k l = Some kind -> url_kind p name l k kind); [|apply G, incl_refl].
  induction s as [|[[[kd t] a] g] s IH]; intros Hi H; [discriminate H|]. cbn [sink_kind_in] in H.
  assert (IH' : sink_kind_in s (lower name) k l = Some kind -> url_kind p name l k kind) by (apply IH; intros x Hx; apply Hi; right; exact Hx).
  destruct (str_eqb k a && (str_eqb t [42] || str_eqb t (lower name))) eqn:E; [|exact (IH' H)].
  apply Bool.andb_true_iff in E. destruct E as [Ea Et]. apply str_eqb_eq in Ea. subst a.
  destruct (sinks_split _ _ _ _ (Hi _ (or_introl eq_refl))) as [(-> & Hu & ->)|(ga & vals & -> & Hg & Nt)].
  - assert (kd = kind) as -> by congruence. apply uk_always. exact Hu.
  - destruct (guard_holds ga vals l) eqn:Eg; [|exact (IH' H)]. assert (kd = kind) as -> by congruence.
    destruct (guard_holds_inv ga vals l LK Eg) as (hv & A & B). apply uk_guarded with (g := ga) (vals := vals) (hv := hv); [|exact A|exact B].
    destruct (str_eqb_spec t [42]); [contradiction|]. cbn [orb] in Et. apply str_eqb_eq in Et. subst t. exact Hg.
Qed.
Lemma not_sink k : is_sink_attr k = false -> (forall kind, ~ In (k, kind) url_attributes) /\ k <> u "content" /\ k <> u "value".
Proof.
  intros H. split.
  - intros kind Hk. destruct (url_attribute_sink k kind [] [] Hk) as [E _]. congruence.
  - split; intros ->; discriminate H.
Qed.
Lemma clean_url name (l : attr_list) k v : lower_keys l -> lower k = k ->
  (forall kind, url_kind p name l k kind -> exists s r, v = Some s /\ rule_of p name k r /\ sanitize_sink py (pol_url p) r (lower name) k kind s = Keep s) ->
  url_attr py (pol_url p) (lower name) l k v = VLeave \/ exists s, v = Some s /\ url_attr py (pol_url p) (lower name) l k v = VSet s.
Proof.
  intros LK Lk H. unfold url_attr. rewrite Lk. destruct (is_sink_attr k) eqn:Es; cbn [negb andb].
  - destruct (sink_kind_for (lower name) k l) as [kind|] eqn:Ek; [|left; reflexivity]. right.
    destruct (H kind (sink_kind_url _ _ _ _ LK Ek)) as (s & r & -> & Hr & E). exists s. split; [reflexivity|]. rewrite (rule_of_rule_for _ _ _ Hr), E. reflexivity.
  - destruct (rule_for (pol_url p) (lower name) k) as [r0|] eqn:Er; [|left; reflexivity]. right. destruct (not_sink k Es) as (N1 & N2 & N3).
    destruct (H KUrl (uk_rule p name l k r0 N1 N2 N3 (rule_for_rule_of _ _ _ Er))) as (s & r & -> & Hr & E).
    exists s. split; [reflexivity|]. rewrite (rule_of_rule_for _ _ _ Hr) in Er. assert (r = r0) as -> by congruence. rewrite E. reflexivity.
Qed.

(* ---- rel ---- *)
Lemma strip_no_space w : (forall c, In c w -> is_space c = false) -> strip w = w.
Proof.
  intros H. apply strip_by_id; intros c t ->; apply H; [left; reflexivity|apply in_or_app; right; left; reflexivity].
Qed.
Lemma split_ws_word w acc rest : (forall c, In c w -> is_space c = false) ->
  split_by_go is_space acc (w ++ rest) = split_by_go is_space (rev w ++ acc) rest.
Proof.
  revert acc. induction w as [|c w IH]; intros acc H; [reflexivity|]. cbn [app split_by_go]. rewrite (H c (or_introl eq_refl)). rewrite IH by (intros x Hx; apply H; right; exact Hx).
  cbn [rev]. rewrite <- app_assoc. reflexivity.
Qed.
Lemma split_ws_join ws : (forall w, In w ws -> w <> [] /\ forall c, In c w -> is_space c = false) -> split_ws (join [32] ws) = ws.
Proof.
  unfold split_ws. induction ws as [|w ws IH]; intros H; [reflexivity|]. destruct (H w (or_introl eq_refl)) as [Nw Hw].
  assert (R : (rev w ++ [])%list <> []). { rewrite app_nil_r. intros E. apply Nw. rewrite <- (rev_involutive w), E. reflexivity. }
  assert (Rr : rev (rev w ++ [])%list = w) by (rewrite app_nil_r; apply rev_involutive).
  destruct ws as [|w2 ws].
  - cbn [join]. rewrite <- (app_nil_r w) at 1. rewrite split_ws_word by exact Hw. cbn [split_by_go]. destruct (rev w ++ [])%list eqn:E; [congruence|]. rewrite Rr. reflexivity.
  - change (join [32] (w :: w2 :: ws)) with (w ++ [32] ++ join [32] (w2 :: ws))%list. rewrite split_ws_word by exact Hw. cbn [app]. cbn [split_by_go].
    change (is_space 32) with true. cbv iota. destruct (rev w ++ [])%list eqn:E; [congruence|]. rewrite Rr. f_equal. apply IH. intros x Hx. apply H. right. exact Hx.
Qed.
Definition rel_step (acc : list str) (t : str) : list str := match lower (strip t) with [] => acc | t2 => add_token acc t2 end.
Definition rel_attr (acc : list str) (kv : str * option str) : list str :=
  if str_eqb (lower (fst kv)) (u "rel") then match snd kv with Some v => fold_left rel_step (split_ws v) acc | None => acc end else acc.
Lemma rel_tokens_eq (a : attr_list) : rel_tokens a = fold_left rel_attr a [].
Proof. reflexivity. Qed.
Lemma rel_skip (l : attr_list) acc : lower_keys l -> ~ In (u "rel") (map fst l) -> fold_left rel_attr l acc = acc.
Proof.
  revert acc. induction l as [|[k v] l IH]; intros acc LK H; [reflexivity|]. cbn [fold_left]. unfold rel_attr at 2. cbn [fst]. rewrite (LK k (or_introl eq_refl)).
  destruct (str_eqb_spec k (u "rel")) as [->|]; [contradiction H; left; reflexivity|]. apply IH; [intros x Hx; apply LK; right; exact Hx|]. intros Q. apply H. right. exact Q.
Qed.
Lemma rel_fold ws : forall acc, NoDup (acc ++ ws) -> (forall w, In w ws -> w <> [] /\ lower w = w /\ forall c, In c w -> is_space c = false) ->
  fold_left rel_step ws acc = (acc ++ ws)%list.
Proof.
  induction ws as [|w ws IH]; intros acc ND H; [rewrite app_nil_r; reflexivity|]. cbn [fold_left]. destruct (H w (or_introl eq_refl)) as (Nw & Lw & Sw).
  assert (E : rel_step acc w = (acc ++ [w])%list).
  { unfold rel_step. rewrite (strip_no_space w Sw), Lw. destruct w as [|c w]; [congruence|]. unfold add_token.
    assert (Q : in_strs (c :: w) acc = false). { apply in_strs_not. intros Q. apply NoDup_remove_2 in ND. apply ND. apply in_or_app. left. exact Q. }
    rewrite Q. reflexivity. }
  rewrite E, IH; [rewrite <- app_assoc; reflexivity|rewrite <- app_assoc; exact ND|]. intros x Hx. apply H. right. exact Hx.
Qed.
Lemma rel_tokens_words (a : attr_list) ws : lower_keys a -> NoDup (map fst a) -> rel_words ws -> In (u "rel", Some (join [32] ws)) a -> rel_tokens a = ws.
Proof.
  intros LK ND [N W] Hin. apply in_split in Hin. destruct Hin as (l1 & l2 & ->). rewrite map_app in ND. cbn [map fst] in ND. pose proof (NoDup_remove_2 _ _ _ ND) as NR.
  rewrite rel_tokens_eq, fold_left_app. cbn [fold_left]. rewrite (rel_skip l1).
  - unfold rel_attr at 2. cbn [fst snd]. change (lower (u "rel")) with (u "rel"). rewrite str_eqb_refl. rewrite split_ws_join by (intros w Hw; destruct (W w Hw) as (A & _ & B); auto).
    rewrite rel_fold by (cbn [app]; assumption). apply rel_skip.
    + intros x Hx. apply LK. rewrite map_app. apply in_or_app. right. right. exact Hx.
    + intros Q. apply NR. apply in_or_app. right. exact Q.
  - intros x Hx. apply LK. rewrite map_app. apply in_or_app. left. exact Hx.
  - intros Q. apply NR. apply in_or_app. left. exact Q.
Qed.
Lemma add_tokens_incl tokens : forall ws, incl tokens ws -> fold_left add_token tokens ws = ws.
Proof.
  induction tokens as [|t tokens IH]; intros ws H; [reflexivity|]. cbn [fold_left]. unfold add_token at 2. assert (E : in_strs t ws = true) by (apply in_strs_In, H; left; reflexivity).
  rewrite E. apply IH. intros x Hx. apply H. right. exact Hx.
Qed.
Lemma dict_set_same {A} k (v : A) l : NoDup (map fst l) -> In (k, v) l -> dict_set k v l = l.
Proof.
  intros ND Hin. unfold dict_set. assert (E : dict_has k l = true) by (apply dict_has_In; apply in_map_iff; exists (k, v); auto). rewrite E.
  rewrite <- (map_id l) at 2. apply map_ext_in. intros [k' v'] Hk. cbn [fst]. destruct (str_eqb_spec k k') as [<-|]; [|reflexivity]. f_equal. eapply NoDup_key_inj; eassumption.
Qed.
Lemma clean_rel name (a : attr_list) ws : lower_keys a -> NoDup (map fst a) -> In (u "rel", Some (join [32] ws)) a -> rel_words ws -> incl (force_link_rel p) ws ->
  lower name = u "a" -> merge_rel (force_link_rel p) name a = a.
Proof.
  intros LK ND Hin HW HI Hn. destruct (merge_rel_simple (force_link_rel p) name a LK Hn) as [[E _]|E]; [exact E|]. rewrite E.
  rewrite (rel_tokens_words a ws LK ND HW Hin), (add_tokens_incl _ _ HI). apply dict_set_same; assumption.
Qed.

Lemma clean_fixed n : clean py p n -> All (fixed_node py p) n.
Proof.
  intros H x Hx. specialize (H x Hx). destruct x as [i name ns attrs ch tc | i d | i d | i d | i d | i name ch]; try exact H.
  destruct H as (H1 & H2 & ND & HA & HR & _). split; [exact H1|]. split; [exact H2|].
  assert (KA : forall k, In k (map fst attrs) -> k <> [] /\ In k (allowed_for (effective_allowed p) name)).
  { intros k Hk. apply in_map_iff in Hk. destruct Hk as ([k' v] & <- & Hk). destruct (HA _ _ Hk) as (A & _). apply clean_allowed. exact A. }
  assert (LK : lower_keys attrs).
  { intros k Hk. eapply attr_allowed_lower; [exact Hv|]. apply allowed_for_attr. apply KA. exact Hk. }
  assert (Kin : forall k v, In (k, v) attrs -> In k (map fst attrs)) by (intros k v Hk; apply in_map_iff; exists (k, v); auto).
  split; [exact ND|]. split; [exact LK|]. split; [|split; [exact KA|split; [|split]]].
  - intros Es k s Hk. destruct (HA _ _ Hk) as (_ & B & _). exact (B Es s eq_refl).
  - intros k v Hk. destruct (HA _ _ Hk) as (_ & _ & C & _). apply clean_url; [exact LK|apply LK; eapply Kin; exact Hk|exact C].
  - intros _ v Hk. destruct (HA _ _ Hk) as (_ & _ & _ & D). exact (D eq_refl).
  - intros Hf. destruct (str_eqb_spec (lower name) (u "a")) as [Hn|Hn]; [|apply merge_rel_other; exact Hn].
    destruct (HR Hn Hf) as (ws & A & B & C). eapply clean_rel; eassumption.
Qed.
Lemma neutralize_none name t : forallb is_alpha_ascii name = true -> alow name = name -> ~ occurs_end name t -> neutralize_opt t name = Some (t, false).
Proof.
  intros Ha Hl H. destruct (alow_alpha name Ha) as (N1 & N2 & N3). unfold neutralize_opt. destruct t as [|x t]; [reflexivity|]. set (T := x :: t) in *. change (u "</") with [60; 47]. cbn [app].
  rewrite neutralize_loop_nl; [|exact N3|discriminate|lia]. cbn [skipn nl].
  destruct (find (60 :: 47 :: name) (alow T)) as [d|] eqn:E; [|reflexivity]. exfalso. apply H. apply find_Some in E. destruct E as (a & b & E & _).
  unfold alow in E. apply map_eq_app in E. destruct E as (t1 & t2 & ET & E1 & E2). cbn [app] in E2.
  destruct t2 as [|c1 [|c2 t3]]; cbn [map] in E2; try discriminate E2. injection E2 as Q1 Q2 Q3.
  assert (L : forall c k, alow_c c = k -> k < 65 -> c = k). { intros c k Q Hk. unfold alow_c, is_upper_ascii in Q. destruct ((65 <=? c) && (c <=? 90)) eqn:B; lia. }
  apply map_eq_app in Q3. destruct Q3 as (t4 & t5 & -> & E4 & _). exists t1, t4, t5. split; [|exact E4]. rewrite ET. rewrite (L c1 60 Q1), (L c2 47 Q2) by lia. reflexivity.
Qed.
Lemma texts_only ch : (forall c, In c ch -> exists i d, c = Tx i d) -> filter is_text ch = ch /\ filter (fun c => negb (is_text c)) ch = [] /\ map text_data ch = map text_data_of ch.
Proof.
  induction ch as [|c ch IH]; intros H; [auto|]. destruct (H c (or_introl eq_refl)) as (i & d & ->). destruct IH as (A & B & C); [intros x Hx; apply H; right; exact Hx|].
  cbn [filter is_text negb map text_data text_data_of]. rewrite A, B, C. auto.
Qed.
Lemma clean_raw n : clean py p n -> All raw_fixed n.
Proof.
  intros H x Hx. specialize (H x Hx). destruct x as [i name ns attrs ch tc | i d | i d | i d | i d | i name ch]; try exact I.
  destruct H as (_ & _ & _ & _ & _ & HR). cbn [raw_fixed]. intros E Ne. apply in_strs_In in E. cbn [In] in E.
  assert (Nm : lower name = u "script" \/ lower name = u "style") by intuition congruence. destruct (HR Nm) as (A & B & C).
  destruct (texts_only ch A) as (T1 & T2 & T3). unfold harden_children. rewrite T1, T2. cbn [map]. rewrite bind_nil.
  destruct ch as [|c ch]; [congruence|]. change text_data with text_data_of. set (txt := List.concat (map text_data_of (c :: ch))) in *.
  rewrite neutralize_none; [|destruct Nm as [-> | ->]; reflexivity|destruct Nm as [-> | ->]; reflexivity|exact B]. rewrite bind_nil.
  destruct Nm as [Nm|Nm]; rewrite Nm in *; [reflexivity|]. change (str_eqb (u "style") (u "style")) with true. cbn [andb]. rewrite ?bind_nil. cbn [andb] in *.
  match goal with |- context [disallowed_functions ?x false] => replace (disallowed_functions x false) with false by (symmetry; exact (C eq_refl)) end. rewrite Bool.andb_false_r. reflexivity.
Qed.
Theorem clean_unchanged n : clean py p n -> fresh n = n -> apply_policy_to_root py p n = Ok n [].
Proof. intros Hc Hf. apply apply_fixed; [right; apply clean_raw; exact Hc|apply clean_fixed; exact Hc|exact Hf]. Qed.
End CleanFinal.
