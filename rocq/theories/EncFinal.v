(* PROOFS: labels, the order of the sources of an encoding, and what a meta tag selects *)
From Coq Require Import Lia ZifyBool ZifyN ZifyNat.
From Verif Require Import Str StrFacts SelTextProofs SelFinal EncModel EncSpec EncProofs.
Open Scope N_scope.

Lemma norm_str_spec l e : norm_str l = Some e <-> names l e.
Proof.
  unfold names. split.
  - unfold norm_str. destruct l as [|c0 l0]; [discriminate|]. remember (c0 :: l0) as l. destruct (strip l) as [|c s]; [discriminate|]. remember (lower (c :: s)) as w. clear Heqw. cbv zeta.
    assert (G : forall ls e0, (forall x, In x ls -> In (x, e0) labels) -> in_strs w ls = true -> Some e0 = Some e -> In (w, e) labels).
    { intros ls e0 A B C. assert (e = e0) as -> by congruence. apply A. apply in_strs_In. exact B. }
    assert (Z : forall ls e0, forallb (fun x => existsb (fun p => str_eqb x (fst p) && str_eqb e0 (snd p)) labels) ls = true -> forall x, In x ls -> In (x, e0) labels).
    { intros ls e0 F x I. rewrite forallb_forall in F. specialize (F x I). apply existsb_exists in F. destruct F as ([a b] & I2 & F). apply andb_true_iff in F. cbn [fst snd] in F. destruct F as [F1 F2]. apply str_eqb_eq in F1, F2. subst. exact I2. }
    repeat (match goal with |- (if in_strs w ?ls then ?r else _) = _ -> _ => let Q := fresh "Q" in destruct (in_strs w ls) eqn:Q; [refine (G ls _ (Z _ _ _) Q); vm_compute; reflexivity|] end). discriminate.
  - intros H. assert (NE : strip l <> []) by (intros Q; rewrite Q in H; revert H; vm_compute; intuition discriminate).
    unfold norm_str. destruct l as [|c0 l0]; [exfalso; apply NE; reflexivity|]. remember (c0 :: l0) as l. destruct (strip l) as [|c s]; [contradiction|]. remember (lower (c :: s)) as w. clear Heqw. cbv zeta.
    unfold labels in H. cbn [In] in H.
    repeat (destruct H as [H | H]; [injection H as <- <-; vm_compute; reflexivity|]). contradiction.
Qed.
Lemma names_nil e : ~ names [] e.
Proof. unfold names. intros H. revert H. vm_compute. intuition discriminate. Qed.
Lemma norm_bytes_spec l e : norm_bytes l = Some e <-> names (ascii_part l) e.
Proof.
  unfold norm_bytes. destruct l as [|c l]; [split; [discriminate|intros H; exfalso; exact (names_nil e H)]|]. apply norm_str_spec.
Qed.
Lemma names_supported l e : names l e -> In e supported.
Proof. unfold names, labels. cbn [In]. intros H. repeat (destruct H as [H | H]; [injection H as _ <-; vm_compute; tauto|]). contradiction. Qed.
Lemma norm_meta_spec l e : norm_meta l = Some e <-> meta_names (ascii_part l) e.
Proof.
  unfold norm_meta, meta_names. split.
  - destruct (norm_bytes l) as [e'|] eqn:E; [|discriminate]. apply norm_bytes_spec in E. intros H. exists e'. split; [exact E|]. apply names_supported in E. unfold supported in E. cbn [In] in E.
    repeat (destruct E as [<- | E]; [vm_compute in H |- *; congruence|]). contradiction.
  - intros (e' & Nm & ->). assert (norm_bytes l = Some e') as -> by (apply norm_bytes_spec; exact Nm). apply names_supported in Nm. unfold supported in Nm. cbn [In] in Nm.
    repeat (destruct Nm as [<- | Nm]; [vm_compute; reflexivity|]). contradiction.
Qed.
Definition meta_results : list str := [u "utf-8"; u "windows-1252"; u "iso-8859-2"; u "euc-jp"].
Lemma meta_names_result l e : meta_names l e -> In e meta_results.
Proof.
  intros (e' & Nm & ->). apply names_supported in Nm. unfold supported in Nm. cbn [In] in Nm.
  repeat (destruct Nm as [<- | Nm]; [vm_compute; tauto|]). contradiction.
Qed.
Lemma names_fun l e e' : names l e -> names l e' -> e = e'.
Proof. intros H H'. apply norm_str_spec in H, H'. congruence. Qed.

(* ---- the byte folding of _extract_charset_from_content does not change what a label names ---- *)
Definition fold_byte (b : N) : N := if ws b then 32 else lower_byte b.
Lemma lower_byte_alow b : lower_byte b = alow_c b.
Proof.
  unfold lower_byte, alow_c, is_upper_ascii. destruct ((65 <=? b) && (b <=? 90)) eqn:E; [|reflexivity].
  assert (b < 128) as L by lia. pose proof (UrlListProofs.ascii_check (fun b => implb ((65 <=? b) && (b <=? 90)) (N.lor b 32 =? b + 32)) ltac:(vm_compute; reflexivity) b L) as G. cbv beta in G. rewrite E in G. cbn [implb] in G. lia.
Qed.
Lemma fold_ascii b : (fold_byte b <? 128) = (b <? 128).
Proof.
  unfold fold_byte. destruct (ws b) eqn:W; [unfold ws in W; lia|]. rewrite lower_byte_alow. unfold alow_c, is_upper_ascii. destruct ((65 <=? b) && (b <=? 90)) eqn:E; lia.
Qed.
Lemma fold_space b : b < 128 -> is_space (fold_byte b) = is_space b.
Proof.
  intros L. pose proof (UrlListProofs.ascii_check (fun b => Bool.eqb (is_space (fold_byte b)) (is_space b)) ltac:(vm_compute; reflexivity) b L) as G. apply Bool.eqb_prop in G. exact G.
Qed.
Lemma filter_fold l : ascii_part (map fold_byte l) = map fold_byte (ascii_part l).
Proof. induction l as [|b l IH]; [reflexivity|]. unfold ascii_part in *. cbn [map filter]. rewrite fold_ascii. destruct (b <? 128); cbn [map]; rewrite IH; reflexivity. Qed.
Lemma dw_map p f (s : str) : (forall c, In c s -> p (f c) = p c) -> drop_while p (map f s) = map f (drop_while p s).
Proof.
  induction s as [|c s IH]; intros H; [reflexivity|]. cbn [map drop_while]. rewrite (H c (or_introl eq_refl)). destruct (p c); [|reflexivity]. apply IH. intros x I. apply H. right. exact I.
Qed.
Lemma strip_map f (s : str) : (forall c, In c s -> is_space (f c) = is_space c) -> strip (map f s) = map f (strip s).
Proof.
  intros H. unfold strip, strip_by, rstrip_by, lstrip_by. rewrite (dw_map _ _ _ H), <- map_rev, dw_map, map_rev; [reflexivity|].
  intros c I. apply H. apply in_rev in I. exact (drop_while_incl _ _ _ I).
Qed.
Lemma label_no_space x e : In (x, e) labels -> forallb (fun c => negb (is_space c) && (c <? 128)) x = true.
Proof. unfold labels. cbn [In]. intros H. repeat (destruct H as [H | H]; [injection H as <- _; vm_compute; reflexivity|]). contradiction. Qed.
Lemma lower_fold_ascii (y : str) : (forall c, In c y -> c < 128) -> lower (map fold_byte y) = map fold_byte y /\ lower y = map alow_c y.
Proof.
  intros H. split.
  - rewrite lower_ascii. 
    + unfold alow. rewrite map_map. apply map_ext_in. intros c I. specialize (H c I).
      pose proof (UrlListProofs.ascii_check (fun c => alow_c (fold_byte c) =? fold_byte c) ltac:(vm_compute; reflexivity) c H) as G. cbv beta in G. lia.
    + unfold is_ascii. apply forallb_forall. intros c I. apply in_map_iff in I. destruct I as (b & <- & I). specialize (H b I). pose proof (fold_ascii b) as G. unfold is_ascii_char. lia.
  - rewrite lower_ascii; [reflexivity|]. unfold is_ascii. apply forallb_forall. intros c I. specialize (H c I). unfold is_ascii_char. lia.
Qed.
Lemma names_fold l e : names (ascii_part (map fold_byte l)) e <-> names (ascii_part l) e.
Proof.
  unfold names. rewrite filter_fold. assert (A : forall c, In c (ascii_part l) -> c < 128) by (intros c I; apply filter_In in I; lia).
  rewrite strip_map by (intros c I; apply fold_space; exact (A c I)).
  assert (A2 : forall c, In c (strip (ascii_part l)) -> c < 128) by (intros c I; apply A; exact (strip_incl _ _ _ I)).
  set (y := strip (ascii_part l)) in *. clearbody y. destruct (lower_fold_ascii y A2) as [-> ->].
  assert (E : (forall c, In c y -> ws c = false) -> map fold_byte y = map alow_c y).
  { intros H. apply map_ext_in. intros c I. unfold fold_byte. rewrite (H c I). apply lower_byte_alow. }
  assert (K : forall f, (forall c, In c y -> ws c = true -> is_space (f c) = true) -> forall e, In (map f y, e) labels -> forall c, In c y -> ws c = false).
  { intros f Hf e0 Hl c I. apply label_no_space in Hl. rewrite forallb_forall in Hl. destruct (ws c) eqn:W; [|reflexivity]. specialize (Hl (f c) (in_map f _ _ I)). rewrite (Hf c I W) in Hl. discriminate Hl. }
  split; intros H.
  - rewrite <- E; [exact H|]. apply (K fold_byte) with (e := e); [|exact H]. intros c I W. unfold fold_byte. rewrite W. reflexivity.
  - rewrite E; [exact H|]. apply (K alow_c) with (e := e); [|exact H]. intros c I W. unfold ws in W. specialize (A2 c I).
    pose proof (UrlListProofs.ascii_check (fun c => implb (ws c) (is_space (alow_c c))) ltac:(vm_compute; reflexivity) c A2) as G. cbv beta in G. unfold ws in G. rewrite W in G. exact G.
Qed.
Lemma meta_names_fold l e : meta_names (ascii_part (map fold_byte l)) e <-> meta_names (ascii_part l) e.
Proof. unfold meta_names. split; intros (e' & Nm & ->); exists e'; (split; [apply names_fold; exact Nm|reflexivity]). Qed.

(* ---- bom ---- *)
Lemma sniff_bom_spec d : match sniff_bom d with Some (e, n) => exists m t, bom m e /\ d = m ++ t /\ n = List.length m | None => ~ has_bom d end.
Proof.
  unfold sniff_bom. destruct (starts [239; 187; 191] d) eqn:E1; [apply starts_spec in E1; destruct E1 as [t ->]; exists [239; 187; 191], t; repeat split; constructor|].
  destruct (starts [255; 254] d) eqn:E2; [apply starts_spec in E2; destruct E2 as [t ->]; exists [255; 254], t; repeat split; constructor|].
  destruct (starts [254; 255] d) eqn:E3; [apply starts_spec in E3; destruct E3 as [t ->]; exists [254; 255], t; repeat split; constructor|].
  intros (m & e & t & B & ->). destruct B; [discriminate E1|discriminate E2|discriminate E3].
Qed.
Lemma sniff_bom_of m e t : bom m e -> sniff_bom (m ++ t) = Some (e, List.length m).
Proof. intros B. destruct B; reflexivity. Qed.
Lemma prescan_all_found d : exists e, prescan_all d = Found e.
Proof. apply prescan_total. lia. Qed.
Lemma sniff_total d t : exists e n, sniff d t = Some (e, n).
Proof.
  unfold sniff. destruct (sniff_bom d) as [[e n]|]; [exists e, n; reflexivity|]. destruct (match t with Some t => norm_str t | None => None end) as [e|]; [exists e, O; reflexivity|].
  destruct (prescan_all_found d) as [[e|] ->]; eexists; eexists; reflexivity.
Qed.
(* ---- where a declared label comes from ---- *)
Definition infix (x s : str) : Prop := exists a b, s = a ++ x ++ b.
Lemma infix_trans x y z : infix x y -> infix y z -> infix x z.
Proof. intros (a & b & ->) (c & d & ->). exists (c ++ a), (b ++ d). rewrite <- !app_assoc. reflexivity. Qed.
Lemma infix_firstn n (s : str) : infix (firstn n s) s.
Proof. exists [], (skipn n s). symmetry. apply firstn_skipn. Qed.
Lemma infix_skipn n (s : str) : infix (skipn n s) s.
Proof. exists (firstn n s), []. rewrite app_nil_r. symmetry. apply firstn_skipn. Qed.
Lemma infix_tw p (s : str) : infix (take_while p s) s.
Proof. exists [], (drop_while p s). apply drop_while_app. Qed.
Lemma infix_dw p (s : str) : infix (drop_while p s) s.
Proof. exists (take_while p s), []. rewrite app_nil_r. apply drop_while_app. Qed.
Lemma infix_cons c (s : str) : infix s (c :: s).
Proof. exists [c], []. rewrite app_nil_r. reflexivity. Qed.
Lemma infix_map_inv f x (s : str) : infix x (map f s) -> exists y, infix y s /\ x = map f y.
Proof.
  intros (a & b & E). apply map_eq_app in E. destruct E as (l1 & l2 & -> & <- & E). apply map_eq_app in E. destruct E as (l3 & l4 & -> & <- & <-).
  exists l3. split; [exists l1, l4; reflexivity|reflexivity].
Qed.
Lemma extract_infix c x : extract_charset c = Some x -> exists y, infix y c /\ x = map fold_byte y.
Proof.
  unfold extract_charset. destruct c as [|c0 c1]; [discriminate|]. remember (c0 :: c1) as c. cbv zeta. change (map (fun b => if ws b then 32 else lower_byte b) c) with (map fold_byte c).
  intros H. apply infix_map_inv. destruct (find (u "charset") (map fold_byte c)) as [idx|]; [|discriminate H].
  assert (I1 : infix (skip (skipn (idx + 7) (map fold_byte c))) (map fold_byte c)) by (eapply infix_trans; [apply infix_dw|apply infix_skipn]).
  destruct (skip (skipn (idx + 7) (map fold_byte c))) as [|e t]; [discriminate H|]. destruct (e =? 61); [|discriminate H].
  assert (I2 : infix (skip t) (map fold_byte c)) by (eapply infix_trans; [apply infix_dw|]; eapply infix_trans; [apply infix_cons|exact I1]).
  destruct (skip t) as [|q r]; [discriminate H|]. destruct ((q =? 34) || (q =? 39)).
  - destruct (find_char q r) as [k|]; [|discriminate H]. assert (x = firstn k r) as -> by congruence. eapply infix_trans; [apply infix_firstn|]. eapply infix_trans; [apply infix_cons|exact I2].
  - remember (take_while (fun b => negb (ws b || (b =? 59))) (q :: r)) as w eqn:W. assert (x = w) as -> by congruence. subst w. eapply infix_trans; [apply infix_tw|exact I2].
Qed.
Definition opt_infix (v : option str) (s : str) : Prop := match v with Some x => infix x s | None => True end.
Definition metas_in (m : metas) (s : str) : Prop := opt_infix (charset m) s /\ opt_infix (http_equiv m) s /\ opt_infix (content m) s.
Lemma attr_one_value s n v r : attr_one s = Attr n v r -> opt_infix v s.
Proof.
  unfold attr_one. set (s1 := skip (drop_while _ s)). assert (I1 : infix s1 s) by (eapply infix_trans; [apply infix_dw|apply infix_dw]). clearbody s1.
  destruct s1 as [|e t]; [intros H; injection H as _ <- _; exact Logic.I|]. destruct (e =? 61); [|intros H; injection H as _ <- _; exact Logic.I].
  assert (I2 : infix (skip t) s) by (eapply infix_trans; [apply infix_dw|]; eapply infix_trans; [apply infix_cons|exact I1]).
  destruct (skip t) as [|q r1]; [discriminate|]. destruct ((q =? 34) || (q =? 39)).
  - destruct (find_char q r1) as [k|]; [|discriminate]. intros H. injection H as _ <- _. unfold opt_infix. eapply infix_trans; [apply infix_firstn|]. eapply infix_trans; [apply infix_cons|exact I2].
  - intros H. remember (take_while (fun b => negb (value_stop b)) (q :: r1)) as w. injection H as _ <- _. subst w. unfold opt_infix. eapply infix_trans; [apply infix_tw|exact I2].
Qed.
Lemma strip_ws_infix v s : opt_infix v s -> opt_infix (strip_ws v) s.
Proof.
  destruct v as [x|]; [|exact (fun H => H)]. cbn [strip_ws option_map opt_infix]. intros H. eapply infix_trans; [|exact H].
  destruct (strip_split ws x) as (a & b & E & _). exists a, b. exact E.
Qed.
Lemma set_meta_in m n v s : metas_in m s -> opt_infix v s -> metas_in (set_meta m n v) s.
Proof.
  intros (A & B & C) V. unfold set_meta. destruct (str_eqb n (u "charset")); [split; [apply strip_ws_infix; exact V|split; assumption]|].
  destruct (str_eqb n (u "http-equiv")); [repeat split; assumption|]. destruct (str_eqb n (u "content")); repeat split; assumption.
Qed.
Lemma attrs_in k : forall pos s m r m' s0, attrs k pos s m = AGt r m' -> infix s s0 -> metas_in m s0 -> metas_in m' s0.
Proof.
  induction k as [|k IH]; intros pos s m r m' s0; cbn [attrs]; [discriminate|]. destruct s as [|ch t]; [discriminate|]. destruct (negb (pos <? cap)); [discriminate|].
  destruct (ch =? 62); [intros H _ M; assert (m' = m) as -> by congruence; exact M|]. destruct (ch =? 60); [discriminate|].
  destruct (ws ch || (ch =? 47)).
  - intros H I M. eapply IH; [exact H| |exact M]. eapply infix_trans; [apply infix_cons|exact I].
  - destruct (attr_one (ch :: t)) as [n v r'|un] eqn:E; [|discriminate]. intros H I M. eapply IH; [exact H| |].
    + destruct (attr_one_suffix _ _ _ _ E) as [a A]. eapply infix_trans; [|exact I]. exists a, []. rewrite app_nil_r. exact A.
    + apply set_meta_in; [exact M|]. pose proof (attr_one_value _ _ _ _ E) as V. destruct v as [x|]; [|exact Logic.I]. cbn [opt_infix] in *. eapply infix_trans; [exact V|exact I].
Qed.
Lemma declared_source m s e : metas_in m s -> declared m = Some e -> exists l, infix l s /\ meta_names (ascii_part l) e.
Proof.
  intros (A & B & C). unfold declared. destruct (match charset m with Some ((_ :: _) as c) => norm_meta c | _ => None end) as [e'|] eqn:E.
  - intros H. assert (e' = e) as -> by congruence. destruct (charset m) as [[|x c]|]; try discriminate E. apply norm_meta_spec in E. exists (x :: c). split; [exact A|exact E].
  - destruct (http_equiv m) as [h|]; [|discriminate]. destruct (content m) as [[|x c]|]; try discriminate. destruct (str_eqb (blower h) (u "content-type")); [|discriminate].
    destruct (extract_charset (x :: c)) as [[|y z]|] eqn:X; try discriminate. intros H. apply norm_meta_spec in H. destruct (extract_infix _ _ X) as (l & I & Q). rewrite Q in H. rewrite meta_names_fold in H.
    exists l. split; [|exact H]. eapply infix_trans; [exact I|exact C].
Qed.
Lemma blower_meta t : blower (take_while alpha_byte t) = u "meta" -> exists m, t = m ++ drop_while alpha_byte t /\ alow m = u "meta".
Proof. intros H. exists (take_while alpha_byte t). split; [apply drop_while_app|exact H]. Qed.
Lemma attrs_suffix k : forall pos s m r m', attrs k pos s m = AGt r m' -> exists a, s = a ++ r.
Proof.
  induction k as [|k IHk]; intros pos s m r m'; cbn [attrs]; [discriminate|]. destruct s as [|ch t0]; [discriminate|]. destruct (negb (pos <? cap)); [discriminate|].
  destruct (ch =? 62); [intros Q; assert (t0 = r) as -> by congruence; exists [ch]; reflexivity|]. destruct (ch =? 60); [discriminate|].
  destruct (ws ch || (ch =? 47)); [intros Q; destruct (IHk _ _ _ _ _ Q) as [a ->]; exists (ch :: a); reflexivity|].
  destruct (attr_one (ch :: t0)) as [n v r'|un] eqn:E; [|discriminate]. intros Q. destruct (IHk _ _ _ _ _ Q) as [a Qa]. destruct (attr_one_suffix _ _ _ _ E) as [a' Ea]. exists (a' ++ a). rewrite <- app_assoc, <- Qa. exact Ea.
Qed.
Lemma prescan_source k : forall pos nc s e, prescan k pos nc s = Found (Some e) ->
  exists a m b l c, s = a ++ [60] ++ m ++ b ++ l ++ c /\ alow m = u "meta" /\ meta_names (ascii_part l) e.
Proof.
  induction k as [|k IH]; intros pos nc s e; cbn [prescan]; [discriminate|]. destruct s as [|c t]; [discriminate|].
  destruct (negb ((pos <? cap) && (nc <? max_non_comment))); [discriminate|].
  assert (PRE : forall p r, c :: t = p ++ r -> (exists a m b l c, r = a ++ [60] ++ m ++ b ++ l ++ c /\ alow m = u "meta" /\ meta_names (ascii_part l) e) ->
     exists a m b l c0, c :: t = a ++ [60] ++ m ++ b ++ l ++ c0 /\ alow m = u "meta" /\ meta_names (ascii_part l) e).
  { intros p r -> (a & m & b & l & d & -> & Q). exists (p ++ a), m, b, l, d. split; [rewrite <- app_assoc; reflexivity|exact Q]. }
  destruct (negb (c =? 60)) eqn:E60; [intros H; apply (PRE [c] t eq_refl); exact (IH _ _ _ _ H)|].
  destruct (starts (u "!--") t).
  { destruct (find (u "-->") (skipn 3 t)) as [x|]; [|discriminate]. intros H. apply (PRE (c :: firstn (3 + x + 3) t) (skipn (3 + x + 3) t)); [cbn [app]; rewrite firstn_skipn; reflexivity|exact (IH _ _ _ _ H)]. }
  destruct t as [|d t2]; [intros H; apply (PRE [c] [] eq_refl); exact (IH _ _ _ _ H)|]. remember (d :: t2) as t.
  assert (SK : forall q, (let '(pos0, nc0, r) := skip_tag pos nc q (c :: t) in prescan k pos0 nc0 r) = Found (Some e) ->
     exists a m b l c0, c :: t = a ++ [60] ++ m ++ b ++ l ++ c0 /\ alow m = u "meta" /\ meta_names (ascii_part l) e).
  { intros q. destruct (skip_tag pos nc q (c :: t)) as [[p' n'] r] eqn:ST. destruct (skip_tag_suffix _ _ _ _ _ _ _ ST) as [a A]. intros H. exact (PRE a r A (IH _ _ _ _ H)). }
  destruct (d =? 47); [apply SK|]. destruct (negb (alpha_byte d)); [intros H; apply (PRE [c] t eq_refl); exact (IH _ _ _ _ H)|].
  destruct (negb (str_eqb (blower (take_while alpha_byte t)) (u "meta"))) eqn:M; [apply SK|]. apply negb_false_iff in M. apply str_eqb_eq in M. destruct (blower_meta _ M) as (m & Em & Lm). cbv zeta.
  set (s1 := drop_while alpha_byte t) in *. destruct (attrs _ _ s1 _) as [r ms|un|] eqn:A; [|destruct un|discriminate].
  - destruct (declared ms) as [e'|] eqn:D.
    + intros H. assert (e' = e) as -> by congruence. assert (I0 : infix s1 s1) by (exists [], []; rewrite app_nil_r; reflexivity).
      pose proof (attrs_in _ _ _ _ _ _ s1 A I0 ltac:(repeat split)) as MI. destruct (declared_source _ _ _ MI D) as (l & (b & d' & I) & Nl).
      exists [], m, b, l, d'. split; [|split; assumption]. cbn [app]. rewrite Em, I. assert (c = 60) as -> by lia. reflexivity.
    + intros H. destruct (attrs_suffix _ _ _ _ _ _ A) as [a SUF]. apply (PRE (c :: m ++ a) r); [|exact (IH _ _ _ _ H)]. cbn [app]. rewrite <- app_assoc, <- SUF, <- Em. reflexivity.
  - intros H. subst t. cbn [skipn] in H. apply (PRE [c; d] t2 eq_refl). exact (IH _ _ _ _ H).
  - intros H. apply (PRE [c] t eq_refl). exact (IH _ _ _ _ H).
Qed.

(* ---- what a meta tag selects ---- *)
Lemma prescan_text t : forall k pos nc s, ~ In 60 t -> pos + N.of_nat (List.length t) <= cap -> nc + N.of_nat (List.length t) <= max_non_comment ->
  prescan (List.length t + k) pos nc (t ++ s) = prescan k (pos + N.of_nat (List.length t)) (nc + N.of_nat (List.length t)) s.
Proof.
  induction t as [|c t IH]; intros k pos nc s NL P C; cbn [List.length app] in *; [f_equal; lia|].
  cbn [Nat.add prescan]. assert (negb ((pos <? cap) && (nc <? max_non_comment)) = false) as -> by lia.
  assert (negb (c =? 60) = true) as -> by (apply negb_true_iff, N.eqb_neq; intros ->; apply NL; left; reflexivity).
  rewrite IH by (try lia; intros Q; apply NL; right; exact Q). f_equal; lia.
Qed.
Lemma comment_find c s : piece_ok (Comment c) -> find (u "-->") (c ++ u "-->" ++ s) = Some (List.length c).
Proof.
  intros OK. cbn [piece_ok] in OK. destruct (find (u "-->") (c ++ u "-->" ++ s)) as [n|] eqn:F.
  - f_equal. apply find_Some in F. destruct F as (x & y & E & L & M). destruct (Nat.lt_trichotomy n (List.length c)) as [Lt|[Eq|Gt]]; [exfalso|exact Eq|exfalso].
    + apply (OK x (skipn (n + 3) (c ++ u "--"))).
      assert (G : firstn (List.length c + 2) (c ++ u "-->" ++ s) = c ++ u "--").
      { rewrite firstn_app. rewrite firstn_all2 by lia. replace (List.length c + 2 - List.length c)%nat with 2%nat by lia. reflexivity. }
      assert (G2 : firstn (n + 3) (c ++ u "--") = x ++ u "-->").
      { rewrite <- G. rewrite firstn_firstn. replace (Nat.min (n + 3) (List.length c + 2)) with (n + 3)%nat by lia. rewrite E. rewrite app_assoc, firstn_app.
        rewrite firstn_all2 by (rewrite app_length; cbn; lia). replace (n + 3 - List.length (x ++ u "-->"))%nat with O by (rewrite app_length; cbn; lia). apply app_nil_r. }
      rewrite app_assoc, <- G2. symmetry. apply firstn_skipn.
    + specialize (M c s eq_refl). lia.
  - exfalso. rewrite find_None in F. exact (F c s eq_refl).
Qed.
Lemma prescan_comment c k pos nc s : piece_ok (Comment c) -> pos < cap -> nc < max_non_comment ->
  prescan (S k) pos nc (u "<!--" ++ c ++ u "-->" ++ s) = prescan k (pos + N.of_nat (7 + List.length c)) nc s.
Proof.
  intros OK P C. change (u "<!--") with (60 :: u "!--"). cbn [app]. cbn [prescan]. assert (negb ((pos <? cap) && (nc <? max_non_comment)) = false) as -> by lia.
  change (negb (60 =? 60)) with false. cbn iota. rewrite (StrFacts.starts_app (u "!--")). change (skipn 3 (u "!--" ++ c ++ u "-->" ++ s)) with (c ++ u "-->" ++ s).
  rewrite (comment_find c s OK). cbv zeta.
  assert (E : skipn (3 + List.length c + 3) (u "!--" ++ c ++ u "-->" ++ s) = s).
  { change (skipn (List.length c + 3) (c ++ u "-->" ++ s) = s). rewrite skipn_app. rewrite skipn_all2 by lia. replace (List.length c + 3 - List.length c)%nat with 3%nat by lia. reflexivity. }
  rewrite E. f_equal. unfold moved. f_equal. f_equal. cbn [List.length]. rewrite !app_length. change (List.length (u "!--")) with 3%nat. change (List.length (u "-->")) with 3%nat. lia.
Qed.
Lemma prescan_pieces ps : forall pos nc s, Forall piece_ok ps -> pos + N.of_nat (List.length (bytes_of ps)) <= cap -> nc + N.of_nat (text_size ps) < max_non_comment ->
  exists k, (List.length s < k)%nat /\ prescan (S (List.length (bytes_of ps ++ s))) pos nc (bytes_of ps ++ s) = prescan k (pos + N.of_nat (List.length (bytes_of ps))) (nc + N.of_nat (text_size ps)) s.
Proof.
  induction ps as [|p ps IH]; intros pos nc s OK P C.
  { exists (S (List.length s)). split; [lia|]. change (bytes_of []) with (@nil N). change (text_size []) with O. cbn [app List.length]. rewrite !N.add_0_r. reflexivity. }
  apply Forall_cons_iff in OK. destruct OK as [O1 O2]. unfold bytes_of, text_size in *. cbn [map List.concat list_sum fold_right] in *. fold (list_sum (map (fun p => match p with Text t => List.length t | Comment _ => O end) ps)) in *. destruct p as [t|c]; cbn [piece_bytes] in *.
  - rewrite app_length in P. destruct (IH (pos + N.of_nat (List.length t)) (nc + N.of_nat (List.length t)) s O2 ltac:(lia) ltac:(lia)) as (k & L & E). exists k. split; [exact L|].
    rewrite <- app_assoc. rewrite app_length, <- Nat.add_succ_r. rewrite prescan_text; [|exact O1|lia|lia]. rewrite E. rewrite app_length. f_equal; lia.
  - set (R := List.concat (map piece_bytes ps)) in *. rewrite <- !app_assoc. rewrite !app_length in P. change (List.length (u "<!--")) with 4%nat in P. change (List.length (u "-->")) with 3%nat in P.
    rewrite prescan_comment; [|exact O1|lia|lia].
    destruct (IH (pos + N.of_nat (7 + List.length c)) nc s O2 ltac:(lia) ltac:(lia)) as (k & L & E). exists k. split; [exact L|].
    rewrite (prescan_fuel (S (List.length (R ++ s)))); [|lia|rewrite !app_length; cbn; lia]. rewrite E. rewrite !app_length. change (List.length (u "<!--")) with 4%nat. change (List.length (u "-->")) with 3%nat. f_equal; lia.
Qed.
Lemma prescan_tag k pos nc s r ms e : (List.length s + 5 < k)%nat -> pos < cap -> nc < max_non_comment -> (match s with [] => True | c :: _ => alpha_byte c = false end) ->
  attrs (S (List.length s)) (pos + 5) s (Metas None None None) = AGt r ms -> declared ms = Some e -> prescan k pos nc (u "<meta" ++ s) = Found (Some e).
Proof.
  intros L P C NA A D. destruct k as [|k]; [lia|]. change (u "<meta" ++ s) with (60 :: 109 :: 101 :: 116 :: 97 :: s). cbn [prescan].
  assert (negb ((pos <? cap) && (nc <? max_non_comment)) = false) as -> by lia. change (negb (60 =? 60)) with false. cbn iota.
  change (starts (u "!--") (109 :: 101 :: 116 :: 97 :: s)) with false. cbn iota. change (109 =? 47) with false. change (negb (alpha_byte 109)) with false. cbn iota.
  destruct (take_app alpha_byte (u "meta") s eq_refl) as [E1 E2]; [destruct s; [exact Logic.I|exact NA]|]. change (u "meta" ++ s) with (109 :: 101 :: 116 :: 97 :: s) in E1, E2. rewrite E1, E2.
  change (negb (str_eqb (blower (u "meta")) (u "meta"))) with false. cbv zeta. cbn iota.
  assert (moved pos (60 :: 109 :: 101 :: 116 :: 97 :: s) s = pos + 5) as -> by (unfold moved; cbn [List.length]; lia). rewrite A, D. reflexivity.
Qed.
Lemma attr_one_quoted n q v r : n <> [] -> forallb (fun b => negb (name_stop b)) n = true -> In q [34; 39] -> ~ In q v -> attr_one (n ++ 61 :: q :: v ++ q :: r) = Attr (blower n) (Some v) r.
Proof.
  intros N0 F Q NQ. unfold attr_one. destruct (take_app (fun b => negb (name_stop b)) n (61 :: q :: v ++ q :: r) F eq_refl) as [-> ->].
  assert (W : ws q = false) by (destruct Q as [<-|[<-|[]]]; reflexivity). unfold skip. cbn [drop_while]. change (ws 61) with false. cbn iota. change (61 =? 61) with true. cbn iota. cbn [drop_while]. rewrite W.
  assert ((q =? 34) || (q =? 39) = true) as -> by (destruct Q as [<-|[<-|[]]]; reflexivity).
  assert (F2 : find_char q (v ++ q :: r) = Some (List.length v)).
  { clear - NQ. induction v as [|c v IH]; cbn [find_char app List.length]; [rewrite N.eqb_refl; reflexivity|]. destruct (N.eqb_spec c q) as [->|]; [exfalso; apply NQ; left; reflexivity|]. rewrite IH; [reflexivity|]. intros I. apply NQ. right. exact I. }
  rewrite F2. rewrite firstn_app, firstn_all, Nat.sub_diag. cbn [firstn]. rewrite app_nil_r. f_equal.
  rewrite skipn_app. rewrite skipn_all2 by lia. replace (S (List.length v) - List.length v)%nat with 1%nat by lia. reflexivity.
Qed.
Lemma attr_one_plain n v x r : n <> [] -> forallb (fun b => negb (name_stop b)) n = true -> v <> [] -> forallb (fun b => negb (value_stop b)) v = true -> (match v with c :: _ => (c =? 34) || (c =? 39) = false | [] => True end) ->
  value_stop x = true -> attr_one (n ++ 61 :: v ++ x :: r) = Attr (blower n) (Some v) (x :: r).
Proof.
  intros N0 F V0 FV VQ X. unfold attr_one. destruct (take_app (fun b => negb (name_stop b)) n (61 :: v ++ x :: r) F eq_refl) as [-> ->].
  unfold skip. change (drop_while ws (61 :: v ++ x :: r)) with (61 :: v ++ x :: r). cbn iota. change (61 =? 61) with true. cbn iota.
  destruct v as [|c v]; [contradiction|]. destruct (take_app (fun b => negb (value_stop b)) (c :: v) (x :: r) FV) as [T1 T2]; [rewrite X; reflexivity|].
  assert (D : drop_while ws ((c :: v) ++ x :: r) = (c :: v) ++ x :: r) by (apply drop_while_id; intros c0 t0 E0; cbn [app] in E0; injection E0 as <- _; cbn [forallb] in FV; unfold value_stop in FV; destruct (ws c); [discriminate FV|reflexivity]).
  rewrite D. cbn [app] in T1, T2 |- *. rewrite VQ, T1, T2. reflexivity.
Qed.
Lemma attrs_skip k pos ch t m : pos < cap -> (ws ch || (ch =? 47)) = true -> attrs (S k) pos (ch :: t) m = attrs k (pos + 1) t m.
Proof.
  intros P W. cbn [attrs]. assert (negb (pos <? cap) = false) as -> by lia. destruct (ch =? 62) eqn:E1; [unfold ws in W; lia|]. destruct (ch =? 60) eqn:E2; [unfold ws in W; lia|]. rewrite W. reflexivity.
Qed.
Lemma attrs_take k pos ch t m n v r : pos < cap -> negb (name_stop ch) = true -> attr_one (ch :: t) = Attr n v r -> attrs (S k) pos (ch :: t) m = attrs k (moved pos (ch :: t) r) r (set_meta m n v).
Proof.
  intros P W E. cbn [attrs]. assert (negb (pos <? cap) = false) as -> by lia. unfold name_stop in W. destruct (ws ch); [discriminate W|]. cbn [orb] in *. destruct (ch =? 62) eqn:E1; [rewrite ?orb_true_r in W; discriminate W|]. destruct (ch =? 60) eqn:E2; [rewrite ?orb_true_r in W; discriminate W|].
  assert ((ch =? 47) = false) as -> by (destruct (ch =? 47); [rewrite ?orb_true_r in W; discriminate W|reflexivity]). rewrite E. reflexivity.
Qed.
Lemma attrs_close k pos close r m : In close [u ">"; u "/>"; u " />"] -> pos + 3 <= cap -> (3 <= k)%nat -> attrs k pos (close ++ r) m = AGt r m.
Proof.
  intros C P K. destruct k as [|[|[|k]]]; try lia.
  assert (G : forall k' p, p < cap -> attrs (S k') p (62 :: r) m = AGt r m) by (intros k' p Hp; cbn [attrs]; assert (negb (p <? cap) = false) as -> by lia; reflexivity).
  destruct C as [<-|[<-|[<-|[]]]].
  - apply G. lia.
  - change (u "/>" ++ r) with (47 :: 62 :: r). rewrite attrs_skip by (reflexivity || lia). apply G. lia.
  - change (u " />" ++ r) with (32 :: 47 :: 62 :: r). rewrite attrs_skip by (reflexivity || lia). rewrite attrs_skip by (reflexivity || lia). apply G. lia.
Qed.
Lemma label_byte_facts l : forallb label_byte l = true -> forallb (fun b => negb (value_stop b)) l = true /\ ascii_part l = l /\ (forall q, In q [34; 39; 59] -> ~ In q l) /\ (forall b, In b l -> ws b = false /\ b < 128).
Proof.
  intros H. rewrite forallb_forall in H. assert (L : forall b, In b l -> b < 128 /\ ws b = false /\ b <> 34 /\ b <> 39 /\ b <> 60 /\ b <> 62 /\ b <> 59).
  { intros b I. specialize (H b I). unfold label_byte, ws, mem in *. cbn [existsb] in H. lia. }
  repeat split.
  - apply forallb_forall. intros b I. specialize (L b I). unfold value_stop. destruct L as (_ & -> & ?). lia.
  - unfold ascii_part. clear H. induction l as [|b l IH]; [reflexivity|]. cbn [filter]. destruct (L b (or_introl eq_refl)) as [B _]. assert (b <? 128 = true) as -> by lia. f_equal. apply IH. intros x I. apply L. right. exact I.
  - intros q Q I. specialize (L q I). destruct Q as [<-|[<-|[<-|[]]]]; lia.
  - specialize (L b H0). tauto.
  - specialize (L b H0). tauto.
Qed.
Lemma strip_ws_label l : (forall b, In b l -> ws b = false) -> strip_ws (Some l) = Some l.
Proof.
  intros H. cbn [strip_ws option_map]. f_equal. change (strip_by ws l = l). apply strip_by_id.
  - intros c t E. apply H. rewrite E. left. reflexivity.
  - intros c t E. apply H. rewrite E. apply in_or_app. right. left. reflexivity.
Qed.
Lemma extract_label l : l <> [] -> forallb label_byte l = true -> extract_charset (u "text/html; charset=" ++ l) = Some (map fold_byte l).
Proof.
  intros L0 L. destruct (label_byte_facts l L) as (_ & _ & NQ & A). change (u "text/html; charset=" ++ l) with (116 :: u "ext/html; charset=" ++ l). unfold extract_charset. cbv zeta.
  change (map (fun b => if ws b then 32 else lower_byte b) (116 :: u "ext/html; charset=" ++ l)) with (map fold_byte (116 :: u "ext/html; charset=" ++ l)).
  change (116 :: u "ext/html; charset=" ++ l) with (u "text/html; charset=" ++ l). rewrite map_app. change (map fold_byte (u "text/html; charset=")) with (u "text/html; " ++ u "charset" ++ u "=").
  assert (F : find (u "charset") ((u "text/html; " ++ u "charset" ++ u "=") ++ map fold_byte l) = Some 11%nat) by reflexivity. rewrite F.
  change (skipn (11 + 7) ((u "text/html; " ++ u "charset" ++ u "=") ++ map fold_byte l)) with (61 :: map fold_byte l). unfold skip. cbn [drop_while]. change (ws 61) with false. cbn iota. change (61 =? 61) with true. cbn iota.
  destruct l as [|c l]; [contradiction|]. cbn [map].
  assert (FF : forall b, In b (c :: l) -> ws (fold_byte b) = false /\ fold_byte b <> 34 /\ fold_byte b <> 39 /\ fold_byte b <> 59).
  { intros b I. destruct (A b I) as [W B]. pose proof (UrlListProofs.ascii_check (fun b => implb (label_byte b) (negb (ws (fold_byte b)) && negb (fold_byte b =? 34) && negb (fold_byte b =? 39) && negb (fold_byte b =? 59))) ltac:(vm_compute; reflexivity) b B) as G. cbv beta in G.
    rewrite forallb_forall in L. rewrite (L b I) in G. cbn [implb] in G. destruct (ws (fold_byte b)); [discriminate G|]. lia. }
  destruct (FF c (or_introl eq_refl)) as (W1 & W2 & W3 & W4). cbn [drop_while]. rewrite W1. assert ((fold_byte c =? 34) || (fold_byte c =? 39) = false) as -> by lia.
  f_equal. change (fold_byte c :: map fold_byte l) with (map fold_byte (c :: l)). rewrite <- (app_nil_r (map fold_byte (c :: l))) at 1. apply take_app; [|exact Logic.I].
  apply forallb_forall. intros b I. apply in_map_iff in I. destruct I as (b0 & <- & I). destruct (FF b0 I) as (-> & ? & ? & ?). lia.
Qed.
Lemma tag_found l tag e : l <> [] -> forallb label_byte l = true -> meta_names l e -> meta_tag l tag ->
  exists s, tag = u "<meta" ++ s /\ (match s with [] => True | c :: _ => alpha_byte c = false end) /\
    forall r pos, pos + 5 + N.of_nat (List.length s) + 3 <= cap -> exists r' ms, attrs (S (List.length (s ++ r))) (pos + 5) (s ++ r) (Metas None None None) = AGt r' ms /\ declared ms = Some e.
Proof.
  intros L0 L Nm T. destruct (label_byte_facts l L) as (FV & AL & NQ & A).
  assert (NM : norm_meta l = Some e) by (apply norm_meta_spec; rewrite AL; exact Nm).
  assert (SW : strip_ws (Some l) = Some l) by (apply strip_ws_label; intros b I; apply A; exact I).
  assert (DC : declared (Metas (Some l) None None) = Some e) by (unfold declared; cbn [charset http_equiv content]; destruct l; [contradiction|]; rewrite NM; reflexivity).
  destruct T as [|q close Q C|close C].
  - exists (u " charset=" ++ l ++ u ">"). split; [reflexivity|split; [reflexivity|]]. intros r pos P. exists r, (Metas (Some l) None None). split; [|exact DC].
    rewrite !app_length in P. change (List.length (u " charset=")) with 9%nat in P. change (List.length (u ">")) with 1%nat in P.
    assert (E : (u " charset=" ++ l ++ u ">") ++ r = 32 :: u "charset" ++ 61 :: l ++ 62 :: r) by (rewrite <- !app_assoc; reflexivity). rewrite E. cbn [List.length]. rewrite attrs_skip by (lia || reflexivity).
    change (u "charset" ++ 61 :: l ++ 62 :: r) with (99 :: u "harset" ++ 61 :: l ++ 62 :: r) at 2.
    rewrite attrs_take with (n := u "charset") (v := Some l) (r := 62 :: r); [|lia|reflexivity|].
    2: { change (99 :: u "harset" ++ 61 :: l ++ 62 :: r) with (u "charset" ++ 61 :: l ++ 62 :: r). apply attr_one_plain; try assumption; try reflexivity; [discriminate|]. destruct l as [|c l]; [exact Logic.I|]. destruct ((c =? 34) || (c =? 39)) eqn:Z; [|reflexivity]. exfalso. apply (NQ c); [destruct (N.eqb_spec c 34) as [->|]; [left; reflexivity|right; left; lia]|left; reflexivity]. }
    change (set_meta (Metas None None None) (u "charset") (Some l)) with (Metas (strip_ws (Some l)) None None). rewrite SW. change (62 :: r) with (u ">" ++ r) at 2.
    rewrite !app_length. apply (attrs_close _ _ (u ">")); [left; reflexivity| |].
    + unfold moved. cbn [List.length]. rewrite !app_length. cbn [List.length]. rewrite !app_length. cbn [List.length]. change (List.length (u "harset")) with 6%nat. change (List.length (u ">")) with 1%nat. lia.
    + change (List.length (u "charset")) with 7%nat. lia.
  - exists (u " charset=" ++ [q] ++ l ++ [q] ++ close). split; [reflexivity|split; [reflexivity|]]. intros r pos P. exists r, (Metas (Some l) None None). split; [|exact DC].
    rewrite !app_length in P. change (List.length (u " charset=")) with 9%nat in P. cbn [List.length] in P.
    assert (E : (u " charset=" ++ [q] ++ l ++ [q] ++ close) ++ r = 32 :: u "charset" ++ 61 :: q :: l ++ q :: close ++ r) by (rewrite <- !app_assoc; reflexivity). rewrite E. cbn [List.length]. rewrite attrs_skip by (lia || reflexivity).
    change (u "charset" ++ 61 :: q :: l ++ q :: close ++ r) with (99 :: u "harset" ++ 61 :: q :: l ++ q :: close ++ r) at 2.
    rewrite attrs_take with (n := u "charset") (v := Some l) (r := close ++ r); [|lia|reflexivity|].
    2: { change (99 :: u "harset" ++ 61 :: q :: l ++ q :: close ++ r) with (u "charset" ++ 61 :: q :: l ++ q :: close ++ r). apply attr_one_quoted; [discriminate|reflexivity|exact Q|]. apply NQ. destruct Q as [<-|[<-|[]]]; [left; reflexivity|right; left; reflexivity]. }
    change (set_meta (Metas None None None) (u "charset") (Some l)) with (Metas (strip_ws (Some l)) None None). rewrite SW.
    apply attrs_close; [exact C| |].
    + unfold moved. cbn [List.length]. rewrite !app_length. cbn [List.length]. rewrite !app_length. cbn [List.length]. rewrite !app_length. change (List.length (u "harset")) with 6%nat. assert (0 <= N.of_nat (List.length close)) by lia. lia.
    + rewrite !app_length. change (List.length (u "charset")) with 7%nat. lia.
  - exists (u " http-equiv=""Content-Type"" content=""text/html; charset=" ++ l ++ [34] ++ close). split; [reflexivity|split; [reflexivity|]]. intros r pos P.
    set (ct := u "text/html; charset=" ++ l). exists r, (Metas None (Some (u "Content-Type")) (Some ct)).
    split.
    2: { assert (X : extract_charset ct = Some (map fold_byte l)) by exact (extract_label l L0 L). assert (C0 : ct <> []) by (unfold ct; discriminate). clearbody ct. unfold declared. cbn [charset http_equiv content]. destruct ct as [|c0 t0]; [contradiction|].
         change (str_eqb (blower (u "Content-Type")) (u "content-type")) with true. cbn iota. rewrite X. destruct l as [|c l]; [contradiction|]. cbn [map]. apply norm_meta_spec. change (fold_byte c :: map fold_byte l) with (map fold_byte (c :: l)). apply meta_names_fold. rewrite AL. exact Nm. }
    rewrite !app_length in P. change (List.length (u " http-equiv=""Content-Type"" content=""text/html; charset=")) with 55%nat in P. cbn [List.length] in P.
    assert (E : (u " http-equiv=""Content-Type"" content=""text/html; charset=" ++ l ++ [34] ++ close) ++ r = 32 :: u "http-equiv" ++ 61 :: 34 :: u "Content-Type" ++ 34 :: 32 :: u "content" ++ 61 :: 34 :: ct ++ 34 :: close ++ r).
    { unfold ct. rewrite <- !app_assoc. reflexivity. }
    rewrite E. cbn [List.length]. rewrite attrs_skip by (lia || reflexivity).
    set (t1 := 32 :: u "content" ++ 61 :: 34 :: ct ++ 34 :: close ++ r).
    change (u "http-equiv" ++ 61 :: 34 :: u "Content-Type" ++ 34 :: t1) with (104 :: u "ttp-equiv" ++ 61 :: 34 :: u "Content-Type" ++ 34 :: t1) at 2.
    rewrite attrs_take with (n := u "http-equiv") (v := Some (u "Content-Type")) (r := t1); [|lia|reflexivity|].
    2: { change (104 :: u "ttp-equiv" ++ 61 :: 34 :: u "Content-Type" ++ 34 :: t1) with (u "http-equiv" ++ 61 :: 34 :: u "Content-Type" ++ 34 :: t1). apply attr_one_quoted; [discriminate|reflexivity|left; reflexivity|]. vm_compute. intuition discriminate. }
    change (set_meta (Metas None None None) (u "http-equiv") (Some (u "Content-Type"))) with (Metas None (Some (u "Content-Type")) None).
    assert (M1 : moved (pos + 5 + 1) (104 :: u "ttp-equiv" ++ 61 :: 34 :: u "Content-Type" ++ 34 :: t1) t1 = pos + 31).
    { unfold moved. cbn [List.length]. rewrite !app_length. cbn [List.length]. rewrite !app_length. change (List.length (u "ttp-equiv")) with 9%nat. change (List.length (u "Content-Type")) with 12%nat. cbn [List.length]. lia. }
    rewrite M1. clear M1. match goal with |- attrs ?f _ _ _ = _ => assert (FK : exists K, f = S (S (S (S (S K))))) end.
    { match goal with |- exists K, ?f = _ => exists (f - 5)%nat end. rewrite !app_length. cbn [List.length]. rewrite !app_length. change (List.length (u "http-equiv")) with 10%nat. change (List.length (u "Content-Type")) with 12%nat. lia. }
    destruct FK as [K ->]. unfold t1. rewrite attrs_skip by (lia || reflexivity).
    change (u "content" ++ 61 :: 34 :: ct ++ 34 :: close ++ r) with (99 :: u "ontent" ++ 61 :: 34 :: ct ++ 34 :: close ++ r).
    rewrite attrs_take with (n := u "content") (v := Some ct) (r := close ++ r); [|lia|reflexivity|].
    2: { change (99 :: u "ontent" ++ 61 :: 34 :: ct ++ 34 :: close ++ r) with (u "content" ++ 61 :: 34 :: ct ++ 34 :: close ++ r). apply attr_one_quoted; [discriminate|reflexivity|left; reflexivity|]. unfold ct. intros I. apply in_app_or in I. destruct I as [I|I]; [revert I; vm_compute; intuition discriminate|]. exact (NQ 34 (or_introl eq_refl) I). }
    apply attrs_close; [exact C| |].
    + unfold moved. cbn [List.length]. rewrite !app_length. cbn [List.length]. rewrite !app_length. cbn [List.length]. rewrite !app_length. unfold ct. rewrite !app_length. change (List.length (u "ontent")) with 6%nat. change (List.length (u "text/html; charset=")) with 19%nat. lia.
    + rewrite ?app_length. lia.
Qed.
