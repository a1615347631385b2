(* attributes: the tokenizer theorem, and the fused parser against parse-then-sanitize *)
From Coq Require Import Lia ZifyBool ZifyN ZifyNat.
From Verif Require Import Str StrFacts EntityTable HtmlCharRefSpec HtmlTokSpec TokFacts CharRefFacts EntitiesModel EntitiesProofs EntExact RefsFacts AttrModel AttrProofs ScanComProofs ScanRcdata.
Open Scope list_scope. Open Scope N_scope.
Local Opaque charref html5_table named_entities legacy_entities.

Lemma dec_amp a w : decode_spec a (38 :: w) = match charref a w with Some (v, n) => v ++ decode_spec a (skipn n w) | None => 38 :: decode_spec a w end.
Proof.
  unfold decode_spec. cbn [decode_spec_go]. change (38 =? 38) with true. cbv iota. destruct (charref a w) as [[v n]|] eqn:E; [|reflexivity]. destruct (charref_chars _ _ _ _ E) as [L _]. rewrite decode_skip by exact L. reflexivity.
Qed.
Lemma val_nul n : forall w, (List.length w <= n)%nat -> map nul (decode_spec true w) = val_of w.
Proof.
  induction n as [|n IH]; intros w L; [destruct w; [reflexivity|cbn in L; lia]|]. destruct w as [|c w]; [reflexivity|]. cbn [List.length] in L. destruct (N.eqb_spec c 38) as [->|N38].
  - rewrite dec_amp, val_amp. destruct (charref true w) as [[v m]|] eqn:E; [|cbn [map]; rewrite IH by lia; reflexivity]. rewrite map_app, (charref_pos _ _ _ _ E). f_equal. apply IH. rewrite skipn_length. lia.
  - rewrite val_other by exact N38. unfold decode_spec. cbn [decode_spec_go]. replace (c =? 38) with false by lia. cbn [map]. f_equal. apply IH. lia.
Qed.
Lemma mem_none c s : mem c s = false -> ~ In c s.
Proof. intros H I. assert (mem c s = true) by (unfold mem; apply existsb_exists; exists c; split; [exact I|apply N.eqb_refl]). congruence. Qed.
Lemma parsed_value_ok v : refs_ok true v -> parsed_value v = Some (val_of (newlines v)).
Proof.
  intros H. unfold parsed_value, decoded_value. cbv zeta. rewrite crlf_newlines. assert (E : decode_entities_in_text (newlines v) true = Some (decode_spec true (newlines v))) by (apply c27_exact; apply refs_newlines; exact H).
  destruct (mem 38 (newlines v)) eqn:M.
  - rewrite E. cbn [option_map]. rewrite nul_map, (val_nul _ _ (le_n _)). reflexivity.
  - assert (D : decode_spec true (newlines v) = newlines v) by (rewrite decode_no_amp in E by (apply mem_none; exact M); congruence). cbn [option_map]. rewrite nul_map, <- (val_nul _ _ (le_n _)), D. reflexivity.
Qed.
Definition fine (strict : bool) (p : str * str) : Prop := (strict = true \/ lower (fst p) = alow (fst p)) /\ refs_ok true (snd p).
Lemma fold_key_ok strict k : strict = true \/ lower k = alow k -> fold_key strict k = name_of k.
Proof. intros H. unfold fold_key, name_of. rewrite nul_map. destruct H as [-> | H]; [reflexivity|]. destruct strict; [reflexivity|]. rewrite H. reflexivity. Qed.
Lemma store_ok strict e n ps : forall attrs, Forall (fine strict) ps -> store_all strict attrs ps = Some (t_attrs (fold_left add_pair ps (Tag e n attrs))).
Proof.
  induction ps as [|[k v] ps IH]; intros attrs H; [reflexivity|]. inversion H as [|? ? [F1 F2] H']; subst. cbn [store_all fold_left fst snd] in *. rewrite parsed_value_ok by exact F2. rewrite fold_key_ok by exact F1. rewrite IH by exact H'. reflexivity.
Qed.
Lemma fold_tag ps : forall t, t_end (fold_left add_pair ps t) = t_end t /\ t_name (fold_left add_pair ps t) = t_name t.
Proof. induction ps as [|p ps IH]; intros t; [split; reflexivity|]. cbn [fold_left]. destruct (IH (add_pair t p)) as [A B]. split; [rewrite A|rewrite B]; reflexivity. Qed.
Lemma attrs_ok sc last strict e n s : Forall (fine strict) (pairs (scan_attrs false s)) ->
  exists attrs, parse_all_attrs strict s = Some (attrs, self_closing (scan_attrs false s), rest (scan_attrs false s), tag_closed (scan_attrs false s)) /\
  run sc O last (BeforeAttrName (Tag e n [])) (newlines s) =
  if tag_closed (scan_attrs false s) then
    if e then TEnd n :: run sc O last Data (newlines (rest (scan_attrs false s))) else TStart n attrs (self_closing (scan_attrs false s)) :: run sc O n (switch sc n) (newlines (rest (scan_attrs false s)))
  else [].
Proof.
  intros H. unfold parse_all_attrs. rewrite (store_ok strict e n) by exact H. eexists. split; [reflexivity|]. pose proof (scan_run sc last (S (List.length s)) s (Tag e n []) [] (le_n _)) as K. cbn [fold_left] in K. rewrite K. unfold finish. fold (scan_attrs false s). destruct (fold_tag (pairs (scan_attrs false s)) (Tag e n [])) as [A B]. rewrite A, B. reflexivity.
Qed.
(* the rest is a rest *)
Lemma dw_suffix p (s : str) : exists a, s = a ++ drop_while p s.
Proof. exists (take_while p s). apply drop_while_app. Qed.
Lemma read_suffix s v r : read_value s = Some (v, r) -> exists a, s = a ++ r.
Proof.
  unfold read_value. destruct (dw_suffix space s) as [a E]. destruct (drop_while space s) as [|q t] eqn:D; [intros K; injection K as <- <-; exists s; rewrite app_nil_r; reflexivity|]. destruct ((q =? 34) || (q =? 39)).
  - destruct (find_char q t) as [k|]; [|discriminate]. intros K. assert (r = skipn (k + 1) t) as -> by congruence. exists (a ++ q :: firstn (k + 1) t). rewrite <- app_assoc. cbn [app]. rewrite firstn_skipn. exact E.
  - intros K. assert (r = drop_while (fun c => negb (value_stop c)) (q :: t)) as -> by congruence. destruct (dw_suffix (fun c => negb (value_stop c)) (q :: t)) as [b E2]. exists (a ++ b). rewrite <- app_assoc, <- E2. exact E.
Qed.
Lemma scan_suffix eqs fuel : forall acc s, exists a, s = a ++ rest (scan eqs fuel acc s).
Proof.
  induction fuel as [|fuel IH]; intros acc s; [exists []; reflexivity|]. cbn [scan]. destruct (dw_suffix space s) as [a0 E0]. destruct (drop_while space s) as [|ch t] eqn:D; [exists s; cbn [rest]; rewrite app_nil_r; reflexivity|].
  assert (G : forall acc x b, ch :: t = b ++ x -> exists a, s = a ++ rest (scan eqs fuel acc x)).
  { intros acc' x b E. destruct (IH acc' x) as [y Ey]. exists (a0 ++ b ++ y). rewrite <- !app_assoc, <- Ey, <- E. exact E0. }
  destruct (ch =? 62); [exists (a0 ++ [ch]); rewrite <- app_assoc; exact E0|]. destruct ((ch =? 47) && starts [62] t) eqn:Q.
  { apply andb_true_iff in Q as [_ Q]. apply starts_spec in Q as [z ->]. exists (a0 ++ [ch; 62]). rewrite <- app_assoc. exact E0. }
  destruct ((ch =? 47) || (eqs && (ch =? 61))); [apply (G acc t [ch]); reflexivity|].
  destruct (dw_suffix (fun c => negb (name_stop c)) t) as [a1 E1]. set (y := drop_while (fun c => negb (name_stop c)) t) in *. destruct (dw_suffix space y) as [a2 E2]. destruct (drop_while space y) as [|e s2].
  - apply (G _ [] (ch :: t)). rewrite app_nil_r. reflexivity.
  - destruct (e =? 61).
    + destruct (read_value s2) as [[v s3]|] eqn:Rv; [|exists s; cbn [rest]; rewrite app_nil_r; reflexivity]. destruct (read_suffix _ _ _ Rv) as [a3 E3]. apply (G _ s3 (ch :: a1 ++ a2 ++ e :: a3)). cbn [app]. f_equal. rewrite E1, E2, E3. rewrite <- !app_assoc. reflexivity.
    + apply (G _ (e :: s2) (ch :: a1 ++ a2)). cbn [app]. f_equal. rewrite E1, E2 at 1. rewrite <- app_assoc. reflexivity.
Qed.
(* all ASCII: nothing to assume *)
Lemma scan_chars (P : N -> Prop) eqs fuel : forall acc s, (forall c, In c s -> P c) -> (forall k v, In (k, v) acc -> (forall c, In c k -> P c) /\ (forall c, In c v -> P c)) ->
  forall k v, In (k, v) (pairs (scan eqs fuel acc s)) -> (forall c, In c k -> P c) /\ (forall c, In c v -> P c).
Proof.
  induction fuel as [|fuel IH]; intros acc s Hs Ha; [exact Ha|]. cbn [scan]. destruct (dw_suffix space s) as [a0 E0]. destruct (drop_while space s) as [|ch t] eqn:D; [exact Ha|].
  assert (Ht : forall c, In c (ch :: t) -> P c) by (intros c I; apply Hs; rewrite E0; apply in_or_app; right; exact I).
  destruct (ch =? 62); [exact Ha|]. destruct ((ch =? 47) && starts [62] t); [exact Ha|]. destruct ((ch =? 47) || (eqs && (ch =? 61))); [apply IH; [intros c I; apply Ht; right; exact I|exact Ha]|].
  pose proof (drop_while_app (fun c => negb (name_stop c)) t) as E1. set (w := take_while (fun c => negb (name_stop c)) t) in *. set (y := drop_while (fun c => negb (name_stop c)) t) in *.
  assert (Hk : forall c, In c (ch :: w) -> P c) by (intros c [<-|I]; apply Ht; [left; reflexivity|right; rewrite E1; apply in_or_app; left; exact I]).
  assert (Hy : forall c, In c y -> P c) by (intros c I; apply Ht; right; rewrite E1; apply in_or_app; right; exact I).
  assert (Ext : forall v, (forall c, In c v -> P c) -> forall k v', In (k, v') (acc ++ [(ch :: w, v)]) -> (forall c, In c k -> P c) /\ (forall c, In c v' -> P c)).
  { intros v Hv k v' I. apply in_app_or in I as [I|[I|[]]]; [apply Ha; exact I|]. injection I as <- <-. split; assumption. }
  destruct (dw_suffix space y) as [a2 E2]. destruct (drop_while space y) as [|e s2]; [apply IH; [intros c []|apply Ext; intros c []]|].
  assert (Hs2 : forall c, In c (e :: s2) -> P c) by (intros c I; apply Hy; rewrite E2; apply in_or_app; right; exact I).
  destruct (e =? 61); [|apply IH; [exact Hs2|apply Ext; intros c []]].
  destruct (read_value s2) as [[v s3]|] eqn:Rv; [|exact Ha]. assert (Hv : (forall c, In c v -> In c s2) /\ (forall c, In c s3 -> In c s2)).
  { destruct (read_suffix _ _ _ Rv) as [a3 E3]. split; [|intros c I; rewrite E3; apply in_or_app; right; exact I]. unfold read_value in Rv. destruct (dw_suffix space s2) as [a4 E4]. destruct (drop_while space s2) as [|q r]; [injection Rv as <- <-; intros c []|]. intros c I. rewrite E4. apply in_or_app. right. destruct ((q =? 34) || (q =? 39)).
    - destruct (find_char q r) as [k|]; [|discriminate Rv]. assert (v = firstn k r) as -> by congruence. right. rewrite <- (firstn_skipn k r). apply in_or_app. left. exact I.
    - assert (v = take_while (fun c => negb (value_stop c)) (q :: r)) as -> by congruence. rewrite (drop_while_app (fun c => negb (value_stop c)) (q :: r)). apply in_or_app. left. exact I. }
  destruct Hv as [Hv1 Hv2]. apply IH; [intros c I; apply Hs2; right; apply Hv2; exact I|]. apply Ext. intros c I. apply Hs2. right. apply Hv1. exact I.
Qed.
Lemma fine_ascii strict s : (forall c, In c s -> c < 128) -> Forall (fine strict) (pairs (scan_attrs false s)).
Proof.
  intros H. apply Forall_forall. intros [k v] I. destruct (scan_chars (fun c => c < 128) false (S (List.length s)) [] s H ltac:(intros k' v' []) k v I) as [A B]. split; cbn [fst snd].
  - right. clear -A. induction k as [|c k IH]; [reflexivity|]. change (lower (c :: k)) with (lower_c c ++ lower k). rewrite lower_c_ascii by (apply A; left; reflexivity). cbn [app alow map]. f_equal. apply IH. intros x I. apply A. right. exact I.
  - apply refs_chars. intros c Ic. left. apply B. exact Ic.
Qed.

(* ---------- C41 ---------- *)
Lemma scan_keeps eqs fuel : forall acc s, exists more, pairs (scan eqs fuel acc s) = acc ++ more.
Proof.
  induction fuel as [|fuel IH]; intros acc s; [exists []; cbn; rewrite app_nil_r; reflexivity|]. cbn [scan]. assert (Z : exists more, acc = acc ++ more) by (exists []; rewrite app_nil_r; reflexivity).
  assert (G : forall p x, exists more, pairs (scan eqs fuel (acc ++ [p]) x) = acc ++ more) by (intros p x; destruct (IH (acc ++ [p]) x) as [m E]; exists (p :: m); rewrite E, <- app_assoc; reflexivity).
  destruct (drop_while space s) as [|ch t]; [exact Z|]. destruct (ch =? 62); [exact Z|]. destruct ((ch =? 47) && starts [62] t); [exact Z|]. destruct ((ch =? 47) || (eqs && (ch =? 61))); [apply IH|]. destruct (drop_while space (drop_while (fun c => negb (name_stop c)) t)) as [|e s2]; [apply G|]. destruct (e =? 61); [|apply G]. destruct (read_value s2) as [[v s3]|]; [apply G|exact Z].
Qed.
Lemma scan_equal fuel : forall acc s, (forall k v, In (k, v) (pairs (scan false fuel acc s)) -> starts [61] k = false) -> tag_closed (scan false fuel acc s) = true -> scan true fuel acc s = scan false fuel acc s.
Proof.
  induction fuel as [|fuel IH]; intros acc s H C; [reflexivity|]. cbn [scan] in *. destruct (drop_while space s) as [|ch t]; [reflexivity|]. destruct (N.eqb_spec ch 62) as [->|N62]; [reflexivity|]. destruct ((ch =? 47) && starts [62] t); [reflexivity|].
  destruct (N.eqb_spec ch 47) as [->|N47]; [cbn [orb andb] in *; apply IH; assumption|]. cbn [orb andb] in *. destruct (N.eqb_spec ch 61) as [->|N61].
  - exfalso. assert (G : forall v x, (forall k v', In (k, v') (pairs (scan false fuel (acc ++ [(61 :: take_while (fun c => negb (name_stop c)) t, v)]) x)) -> starts [61] k = false) -> False).
    { intros v x K. destruct (scan_keeps false fuel (acc ++ [(61 :: take_while (fun c => negb (name_stop c)) t, v)]) x) as [m E]. specialize (K (61 :: take_while (fun c => negb (name_stop c)) t) v). rewrite E in K. specialize (K ltac:(apply in_or_app; left; apply in_or_app; right; left; reflexivity)). discriminate K. }
    destruct (drop_while space (drop_while (fun c => negb (name_stop c)) t)) as [|e s2]; [exact (G _ _ H)|]. destruct (e =? 61); [|exact (G _ _ H)]. destruct (read_value s2) as [[v s3]|]; [exact (G _ _ H)|discriminate C].
  - destruct (drop_while space (drop_while (fun c => negb (name_stop c)) t)) as [|e s2]; [apply IH; assumption|]. destruct (e =? 61); [|apply IH; assumption]. destruct (read_value s2) as [[v s3]|]; [apply IH; assumption|reflexivity].
Qed.
(* decoding gives no U+0000 of its own *)
Lemma named_pos : forallb (fun e : str * str => forallb (fun c => negb (c =? 0)) (snd e)) named_entities = true.
Proof. vm_compute. reflexivity. Qed.
Lemma assoc_in (k v : str) (l : list (str * str)) : assoc k l = Some v -> exists k', In (k', v) l.
Proof. induction l as [|[a b] l IH]; [discriminate|]. cbn [assoc]. destruct (str_eqb k a); [intros E; injection E as <-; exists a; left; reflexivity|]. intros E. destruct (IH E) as [k' I]. exists k'. right. exact I. Qed.
Lemma assoc_pos k v : assoc k named_entities = Some v -> ~ In 0 v.
Proof. intros E. apply assoc_in in E as [k' I]. pose proof named_pos as K. rewrite forallb_forall in K. specialize (K _ I). cbn [snd] in K. intros Z. rewrite forallb_forall in K. specialize (K 0 Z). discriminate K. Qed.
Lemma prefix_pos t : forall k v n, legacy_prefix t k = Some (v, n) -> ~ In 0 v.
Proof. induction k as [|k IH]; [discriminate|]. intros v n. cbn [legacy_prefix]. destruct (in_strs (firstn (S k) t) legacy_entities); [|apply IH]. destruct (assoc (firstn (S k) t) named_entities) eqn:E; [|apply IH]. intros H. assert (s = v) as -> by congruence. apply (assoc_pos _ _ E). Qed.
Lemma model_numeric_pos ds hex w : decode_numeric_entity ds hex = Some w -> ~ In 0 w.
Proof.
  unfold decode_numeric_entity. destruct (Nat.ltb 16 _); [intros H; injection H as <-; intros [K|[]]; discriminate K|]. destruct (py_int hex 0 _) as [cp|]; [|discriminate]. destruct (1114111 <? cp); [intros H; injection H as <-; intros [K|[]]; discriminate K|]. destruct ((55296 <=? cp) && (cp <=? 57343)); [intros H; injection H as <-; intros [K|[]]; discriminate K|].
  destruct (List.find (fun p : N * N => fst p =? cp) numeric_replacements) as [p|] eqn:E.
  - apply find_some in E as [I _]. assert (K : forallb (fun p : N * N => negb (snd p =? 0)) numeric_replacements = true) by reflexivity. rewrite forallb_forall in K. specialize (K p I). intros H. assert (w = [snd p]) as -> by congruence. intros [Z|[]]. rewrite Z in K. discriminate K.
  - intros H. assert (w = [cp]) as -> by congruence. intros [Z|[]]. subst cp. discriminate E.
Qed.
Lemma firstn_in n (t : str) c : In c (firstn n t) -> In c t.
Proof. intros I. rewrite <- (firstn_skipn n t). apply in_or_app. left. exact I. Qed.
Lemma ent_inj w n w' n' : EntOk w n = EntOk w' n' -> w = w'.
Proof. intros H. injection H as H _. exact H. Qed.
Lemma step_pos a t w n : ~ In 0 t -> entity_step a t = EntOk w n -> ~ In 0 w.
Proof.
  intros Ht. assert (Fl : forall m, ~ In 0 (38 :: firstn m t)) by (intros m [K|K]; [discriminate K|apply Ht; apply firstn_in in K; exact K]). assert (A0 : ~ In 0 [38]) by (intros [K|[]]; discriminate K).
  unfold entity_step. destruct t as [|c t1] eqn:Et; [intros H; injection H as <- <-; exact A0|]. rewrite <- Et in *. clear Et. destruct (c =? 35).
  - unfold entity_numeric. destruct (take_while _ _); [intros H; assert (exists m, w = 38 :: firstn m t) as [m ->] by (apply ent_inj in H; eexists; symmetry; exact H); apply Fl|]. destruct (decode_numeric_entity _ _) eqn:E; [|discriminate]. intros H. apply ent_inj in H. rewrite <- H. apply (model_numeric_pos _ _ _ E).
  - unfold entity_named. destruct (take_while isname t); [intros H; injection H as <- <-; exact A0|].
    destruct (if semi (drop_while isname t) then assoc _ named_entities else None) as [v|] eqn:E1; [intros H; assert (v = w) as <- by (apply ent_inj in H; congruence); destruct (semi (drop_while isname t)); [apply (assoc_pos _ _ E1)|discriminate E1]|].
    destruct (legacy_prefix t _) as [[v k]|] eqn:E2.
    + pose proof (prefix_pos _ _ _ _ E2) as P2. destruct (semi (drop_while isname t) && negb a); [intros H; assert (v = w) as <- by (apply ent_inj in H; congruence); exact P2|]. destruct (if in_strs _ legacy_entities then assoc _ named_entities else None) as [v'|] eqn:E3; [|destruct a; intros H; [assert (w = [38]) as -> by (apply ent_inj in H; congruence); exact A0|assert (v = w) as <- by (apply ent_inj in H; congruence); exact P2]].
      assert (P3 : ~ In 0 v') by (destruct (in_strs _ legacy_entities); [apply (assoc_pos _ _ E3)|discriminate E3]). destruct (a && _); intros H; [assert (w = [38]) as -> by (apply ent_inj in H; congruence); exact A0|assert (v' = w) as <- by (apply ent_inj in H; congruence); exact P3].
    + replace (if semi (drop_while isname t) && negb a then None else None) with (@None (str * nat)) by (destruct (_ && _); reflexivity). destruct (if in_strs _ legacy_entities then assoc _ named_entities else None) as [v'|] eqn:E3.
      * assert (P3 : ~ In 0 v') by (destruct (in_strs _ legacy_entities); [apply (assoc_pos _ _ E3)|discriminate E3]). destruct (a && _); intros H; [assert (w = [38]) as -> by (apply ent_inj in H; congruence); exact A0|assert (v' = w) as <- by (apply ent_inj in H; congruence); exact P3].
      * destruct (semi (drop_while isname t)); intros H; [assert (exists m, w = 38 :: firstn m t) as [m ->] by (apply ent_inj in H; eexists; symmetry; exact H); apply Fl|assert (w = [38]) as -> by (apply ent_inj in H; congruence); exact A0].
Qed.
Lemma decode_pos a : forall s k w, ~ In 0 s -> decode_go a k s = Some w -> ~ In 0 w.
Proof.
  induction s as [|c s IH]; intros k w H E; [injection E as <-; exact H|]. assert (Hs : ~ In 0 s) by (intros I; apply H; right; exact I). cbn [decode_go] in E. destruct k as [|k]; [|apply (IH k); assumption]. destruct (c =? 38).
  - destruct (entity_step a s) as [|v n] eqn:Es; [discriminate E|]. destruct (decode_go a n s) as [r|] eqn:Er; [|discriminate E]. cbn [option_map] in E. assert (w = v ++ r) as -> by congruence. intros I. apply in_app_or in I as [I|I]; [exact (step_pos _ _ _ _ Hs Es I)|exact (IH n r Hs Er I)].
  - destruct (decode_go a 0 s) as [r|] eqn:Er; [|discriminate E]. cbn [option_map] in E. assert (w = c :: r) as -> by congruence. intros [I|I]; [apply H; left; exact I|exact (IH O r Hs Er I)].
Qed.
Lemma value_plain v w : ~ In 13 v -> ~ In 0 v -> parsed_value v = Some w -> decoded_value v = Some w.
Proof.
  intros H13 H0. unfold parsed_value. rewrite crlf_newlines, newlines_id by exact H13. cbv zeta. intros K. destruct (decoded_value v) as [x|] eqn:E; [|discriminate K]. cbn [option_map] in K. rewrite nul_map in K. assert (map nul x = w) as <- by congruence. f_equal. symmetry. apply nul_none. unfold decoded_value in E. destruct (mem 38 v); [exact (decode_pos true v O x H0 E)|congruence].
Qed.
Section Fused.
Variables (strict : bool) (strip : str -> str) (a : action).
Hypothesis stable : forall x, In x (allowed a) -> fold_key strict x = x.
Lemma classify_key k : classify strict a k = (fold_key strict k, in_strs (fold_key strict k) (allowed a), snd (classify strict a k)).
Proof. unfold classify. destruct (in_strs k (allowed a)) eqn:E; [|reflexivity]. cbn [snd]. rewrite (stable k) by (apply in_strs_In; exact E). rewrite E. reflexivity. Qed.
Notation ok := (fun p : str * str => in_strs (fst p) (allowed a)).
Lemma put_new k v d : has_key k d = false -> put k v d = d ++ [(k, v)].
Proof. induction d as [|[k' v'] d IH]; [reflexivity|]. cbn [has_key existsb fst put]. intros H. apply orb_false_iff in H as [H1 H2]. rewrite H1. cbn [app]. f_equal. apply IH. exact H2. Qed.
Lemma sanitize_app x y : sanitize_parsed strip a (x ++ y) = sanitize_parsed strip a x ++ sanitize_parsed strip a y.
Proof. induction x as [|[k v] x IH]; [reflexivity|]. cbn [app sanitize_parsed]. destruct (in_strs k (allowed a)); [|exact IH]. destruct (url a k (strip v)); [cbn [app]; rewrite IH; reflexivity|exact IH]. Qed.
Lemma has_key_app k x y : has_key k (x ++ y) = has_key k x || has_key k y.
Proof. apply existsb_app. Qed.
Lemma has_key_in k d : has_key k d = true -> In k (map fst d).
Proof. unfold has_key. intros H. apply existsb_exists in H as ([k' v'] & I & E). apply str_eqb_eq in E. cbn [fst] in E. subst k'. apply in_map_iff. exists (k, v'). split; [reflexivity|exact I]. Qed.
Lemma fused_agrees ps : forall d acc all, (forall k, In k (map fst d) -> In k (map fst acc)) -> NoDup (map fst acc ++ map (fun p => fold_key strict (fst p)) ps) ->
  (forall k v, In (k, v) ps -> ~ In 13 v /\ ~ In 0 v) -> filter ok d = sanitize_parsed strip a acc -> store_all strict acc ps = Some all ->
  exists d', fused_store strict strip a d ps = Some d' /\ filter ok d' = sanitize_parsed strip a all.
Proof.
  induction ps as [|[k v] ps IH]; intros d acc all Sub Nd Cl F St; [exists d; cbn [store_all fused_store] in *; split; [reflexivity|]; assert (acc = all) as <- by congruence; exact F|].
  cbn [store_all fused_store map fst] in *. destruct (parsed_value v) as [w|] eqn:Pv; [|discriminate St]. destruct (Cl k v (or_introl eq_refl)) as [C1 C2]. rewrite classify_key. set (key := fold_key strict k) in *. rewrite (value_plain v w C1 C2 Pv).
  assert (Na : ~ In key (map fst acc)) by (apply NoDup_remove_2 in Nd; intros I; apply Nd; apply in_or_app; left; exact I).
  assert (Hacc : has_key key acc = false) by (destruct (has_key key acc) eqn:E; [destruct (Na (has_key_in _ _ E))|reflexivity]). rewrite Hacc in St.
  assert (Hd : has_key key d = false) by (destruct (has_key key d) eqn:E; [destruct (Na (Sub _ (has_key_in _ _ E)))|reflexivity]).
  assert (Nd' : NoDup (map fst (acc ++ [(key, w)]) ++ map (fun p => fold_key strict (fst p)) ps)) by (rewrite map_app, <- app_assoc; exact Nd).
  assert (Cl' : forall k v, In (k, v) ps -> ~ In 13 v /\ ~ In 0 v) by (intros k' v' I; apply (Cl k'); right; exact I).
  assert (Sub1 : forall x, In x (map fst d) -> In x (map fst (acc ++ [(key, w)]))) by (intros x I; rewrite map_app; apply in_or_app; left; apply Sub; exact I).
  assert (Sub2 : forall y x, In x (map fst (d ++ [(key, y)])) -> In x (map fst (acc ++ [(key, w)]))) by (intros y x I; rewrite map_app in *; apply in_app_or in I as [I|I]; apply in_or_app; [left; apply Sub; exact I|right; exact I]).
  assert (San : sanitize_parsed strip a (acc ++ [(key, w)]) = sanitize_parsed strip a acc ++ sanitize_parsed strip a [(key, w)]) by apply sanitize_app. cbn [sanitize_parsed] in San.
  destruct (in_strs key (allowed a)) eqn:Al.
  - cbn [negb andb]. rewrite andb_false_r. destruct (url a key (strip w)) as [y|] eqn:U.
    + rewrite (put_new key y d Hd). apply (IH _ (acc ++ [(key, w)]) all (Sub2 y) Nd' Cl'); [|exact St]. rewrite filter_app. cbn [filter fst]. rewrite Al, F, San. reflexivity.
    + apply (IH d (acc ++ [(key, w)]) all Sub1 Nd' Cl'); [|exact St]. rewrite F, San, app_nil_r. reflexivity.
  - rewrite app_nil_r in San. destruct (snd (classify strict a k)); cbn [negb andb].
    + rewrite (put_new key w d Hd). apply (IH _ (acc ++ [(key, w)]) all (Sub2 w) Nd' Cl'); [|exact St]. rewrite filter_app. cbn [filter fst]. rewrite Al, app_nil_r, F, San. reflexivity.
    + apply (IH d (acc ++ [(key, w)]) all Sub1 Nd' Cl'); [|exact St]. rewrite F, San. reflexivity.
Qed.
End Fused.
(* every attribute of the output has passed the rules, whatever the input *)
Lemma put_in k v d p : In p (put k v d) -> p = (k, v) \/ In p d.
Proof. induction d as [|[k' v'] d IH]; cbn [put]; [intros [<-|[]]; left; reflexivity|]. destruct (str_eqb k k'); [intros [<-|I]; [left; reflexivity|right; right; exact I]|]. intros [<-|I]; [right; left; reflexivity|]. destruct (IH I) as [K|K]; [left; exact K|right; right; exact K]. Qed.
Lemma fused_safe strict strip a ps : forall d d', fused_store strict strip a d ps = Some d' ->
  forall k v, In (k, v) d' -> In (k, v) d \/ (In k (allowed a) /\ exists w, url a k w = Some v) \/ (~ In k (allowed a) /\ (preserve_state a = true \/ In k (state_attrs a))).
Proof.
  induction ps as [|[k0 v0] ps IH]; intros d d' E k v I; [left; cbn [fused_store] in E; congruence|]. cbn [fused_store] in E. destruct (classify strict a k0) as [[key ko] ks] eqn:C. destruct (negb ko && negb ks) eqn:Q; [exact (IH d d' E k v I)|]. destruct (decoded_value v0) as [w|]; [|discriminate E].
  assert (Hk : ko = in_strs key (allowed a) /\ (ko = false -> ks = true -> preserve_state a = true \/ In key (state_attrs a))).
  { unfold classify in C. destruct (in_strs k0 (allowed a)) eqn:A; [injection C as <- <- <-; split; [symmetry; exact A|discriminate]|]. cbv zeta in C. injection C as <- <- <-. split; [reflexivity|]. intros _ K. apply orb_true_iff in K as [K|K]; [left; exact K|right; apply in_strs_In; exact K]. }
  destruct Hk as [Hko Hks]. destruct (ks && negb ko) eqn:Q2.
  - apply andb_true_iff in Q2 as [-> Hn]. apply negb_true_iff in Hn. destruct (IH _ _ E k v I) as [K|K]; [|right; exact K]. apply put_in in K as [K|K]; [|left; exact K]. injection K as -> ->. right. right. split; [|apply Hks; [exact Hn|reflexivity]]. intros J. apply in_strs_In in J. congruence.
  - assert (ko = true) as -> by (destruct ko, ks; discriminate || reflexivity). destruct (url a key (strip w)) as [y|] eqn:U; [|exact (IH d d' E k v I)]. destruct (IH _ _ E k v I) as [K|K]; [|right; exact K]. apply put_in in K as [K|K]; [|left; exact K]. injection K as -> ->. right. left. split; [apply in_strs_In; symmetry; exact Hko|]. exists (strip w). exact U.
Qed.
