(* the events cover the html, piece by piece; the scanner ends and its own data never fails *)
From Coq Require Import Lia ZifyBool ZifyN ZifyNat.
From Verif Require Import Str StrFacts EntitiesModel HtmlTokSpec RawTextSpec TokFacts EntExact RefsFacts ScanModel ScanComProofs ScanRawProofs ScanFirst AttrModel StreamModel StreamSpec StreamStack.
From Verif Require AttrFinal SelNodeProofs ScanRcdata ScanScriptFind EntitiesProofs.
Open Scope list_scope. Open Scope N_scope.
Local Opaque decode_entities_in_text html_integration_point.

Lemma no_nul_map s : no_nul s = map nul s.
Proof. apply nul_map. Qed.
Lemma until_split c s d r : until c s = (d, r) -> ~ In c d /\ (s = d ++ c :: r \/ (s = d /\ r = [])).
Proof.
  unfold until. destruct (find_char c s) as [k|] eqn:E.
  - apply find_char_Some in E as (a & b & -> & <- & Na). intros K. rewrite firstn_app, Nat.sub_diag, firstn_all, app_nil_r in K. replace (List.length a + 1)%nat with (List.length (a ++ [c])) in K by (rewrite app_length; reflexivity). replace (a ++ c :: b) with ((a ++ [c]) ++ b) in K by (rewrite <- app_assoc; reflexivity).
    rewrite skipn_app, Nat.sub_diag, skipn_all in K. cbn [skipn app] in K. injection K as <- <-. split; [exact Na|left; reflexivity].
  - apply find_char_None in E. intros K. injection K as <- <-. split; [exact E|right; split; reflexivity].
Qed.
Lemma find_at p s k : find p s = Some k -> s = firstn k s ++ p ++ skipn (k + List.length p) s /\ (k + List.length p <= List.length s)%nat.
Proof.
  intros E. apply find_Some in E as (a & b & -> & <- & _). rewrite firstn_app, Nat.sub_diag, firstn_all, app_nil_r. split; [|rewrite !app_length; lia]. f_equal. f_equal. rewrite app_assoc. replace (List.length a + List.length p)%nat with (List.length (a ++ p)) by apply app_length. rewrite skipn_app, Nat.sub_diag, skipn_all. reflexivity.
Qed.
Lemma find_none_prefix p s k : find p s = Some k -> p <> [] -> ~ contains p (firstn k s) = true.
Proof.
  intros E Np C. apply find_Some in E as (a & b & Es & <- & Mn). apply contains_spec in C as (x & y & C). assert (K : s = x ++ p ++ (y ++ skipn (List.length a) s)) by (rewrite <- (firstn_skipn (List.length a) s) at 1; rewrite C, <- !app_assoc; reflexivity).
  specialize (Mn x _ K). assert (L : List.length (firstn (List.length a) s) = List.length (x ++ p ++ y)) by (rewrite C; reflexivity). rewrite firstn_length, !app_length in L. destruct p; [congruence|]. cbn [List.length] in L. lia.
Qed.
Lemma no_early p s k a b : find p s = None \/ (exists j, find p s = Some j /\ (k <= j)%nat) -> s = a ++ b -> (List.length a <= k)%nat -> p <> [] -> contains p a = false.
Proof.
  intros H -> L Np. destruct (contains p a) eqn:C; [|reflexivity]. exfalso. apply contains_spec in C as (x & y & ->). destruct H as [H|(j & H & Lj)].
  - rewrite find_None in H. apply (H x (y ++ b)). rewrite <- !app_assoc. reflexivity.
  - apply find_Some in H as (u0 & v0 & _ & <- & Mn). specialize (Mn x (y ++ b)). rewrite <- !app_assoc in Mn. specialize (Mn eq_refl). rewrite !app_length in L. destruct p; [congruence|]. cbn [List.length] in L. lia.
Qed.
Definition comment_ok (x b r : str) : Prop :=
  (In b [u "-->"; u "--!>"] \/ (r = [] /\ (b = u "--" \/ b = [] /\ ends (u "--") x = false))) /\ contains (u "-->") x = false /\ contains (u "--!>") x = false /\ starts (u ">") (x ++ b) = false /\ starts (u "->") (x ++ b) = false.
Lemma starts_prefix p a b : starts p a = true -> starts p (a ++ b) = true.
Proof. intros H. apply starts_spec in H as [t ->]. apply starts_spec. exists (t ++ b). rewrite <- app_assoc. reflexivity. Qed.
Lemma comment_split s d r : comment_declaration s = (d, r) -> (exists b, s = b ++ r /\ d = [] /\ In b [u ">"; u "->"]) \/ exists x b, s = x ++ b ++ r /\ d = map nul x /\ comment_ok x b r.
Proof.
  unfold comment_declaration. destruct (starts [62] s) eqn:S1; [apply starts_spec in S1 as [t ->]; intros K; injection K as <- <-; left; exists [62]; split; [reflexivity|]; split; [reflexivity|left; reflexivity]|].
  destruct (starts [45; 62] s) eqn:S2; [apply starts_spec in S2 as [t ->]; intros K; injection K as <- <-; left; exists [45; 62]; split; [reflexivity|]; split; [reflexivity|right; left; reflexivity]|]. cbv zeta.
  assert (St : forall x b y, s = x ++ b ++ y -> starts (u ">") (x ++ b) = false /\ starts (u "->") (x ++ b) = false).
  { intros x b y E. rewrite app_assoc in E. split; [destruct (starts (u ">") (x ++ b)) eqn:Q|destruct (starts (u "->") (x ++ b)) eqn:Q]; try reflexivity; apply (starts_prefix _ _ y) in Q; rewrite <- E in Q; [change (u ">") with [62] in Q|change (u "->") with [45; 62] in Q]; congruence. }
  assert (Fl : forall p k, find p s = Some k -> (List.length (firstn k s) <= k)%nat) by (intros; rewrite firstn_length; lia).
  assert (Go : forall p q k, (p = u "-->" /\ q = u "--!>" \/ p = u "--!>" /\ q = u "-->") -> find p s = Some k -> find q s = None \/ (exists j, find q s = Some j /\ (k <= j)%nat) -> exists x b, s = x ++ b ++ skipn (k + List.length p) s /\ map nul (firstn k s) = map nul x /\ comment_ok x b (skipn (k + List.length p) s)).
  { intros p q k Hpq Fp Fq. destruct (find_at _ _ _ Fp) as [Es _]. exists (firstn k s), p. split; [exact Es|]. split; [reflexivity|]. pose proof (no_early p s k _ _ (or_intror (ex_intro _ k (conj Fp (le_n k)))) (eq_sym (firstn_skipn k s)) (Fl _ _ Fp)) as Cp. pose proof (no_early q s k _ _ Fq (eq_sym (firstn_skipn k s)) (Fl _ _ Fp)) as Cq. destruct (St _ _ _ Es) as [A B].
    unfold comment_ok. destruct Hpq as [[-> ->]|[-> ->]]; (split; [left; cbn [In]; tauto|]; split; [|split; [|split; assumption]]); first [apply Cp|apply Cq]; discriminate. }
  destruct (find (u "-->") s) as [i|] eqn:Ei, (find (u "--!>") s) as [j|] eqn:Ej.
  - destruct (Nat.leb_spec j i) as [K0|K0]; intros K; injection K as <- <-; right; rewrite no_nul_map.
    + exact (Go (u "--!>") (u "-->") j (or_intror (conj eq_refl eq_refl)) Ej (or_intror (ex_intro _ i (conj Ei K0)))).
    + exact (Go (u "-->") (u "--!>") i (or_introl (conj eq_refl eq_refl)) Ei (or_intror (ex_intro _ j (conj Ej (Nat.lt_le_incl _ _ K0))))).
  - intros K; injection K as <- <-; right; rewrite no_nul_map. exact (Go (u "-->") (u "--!>") i (or_introl (conj eq_refl eq_refl)) Ei (or_introl Ej)).
  - intros K; injection K as <- <-; right; rewrite no_nul_map. exact (Go (u "--!>") (u "-->") j (or_intror (conj eq_refl eq_refl)) Ej (or_introl Ei)).
  - intros K. injection K as <- <-. right. unfold remove_dashes. destruct (ends [45; 45] s) eqn:E.
    + apply SelNodeProofs.ends_spec in E as [l E]. exists l, (u "--"). assert (Ef : firstn (List.length s - 2) s = l) by (rewrite E, app_length; cbn [List.length]; replace (List.length l + 2 - 2)%nat with (List.length l) by lia; rewrite firstn_app, Nat.sub_diag, firstn_all, app_nil_r; reflexivity). rewrite Ef. split; [rewrite app_nil_r; exact E|]. split; [apply no_nul_map|].
      destruct (St l (u "--") [] ltac:(rewrite app_nil_r; exact E)) as [A B]. split; [right; split; [reflexivity|left; reflexivity]|]. split; [|split; [|split; assumption]]; [apply (no_early (u "-->") s (List.length l) l _ (or_introl Ei) E (le_n _))|apply (no_early (u "--!>") s (List.length l) l _ (or_introl Ej) E (le_n _))]; discriminate.
    + exists s, []. split; [rewrite app_nil_r; reflexivity|]. split; [apply no_nul_map|]. destruct (St s [] [] ltac:(rewrite !app_nil_r; reflexivity)) as [A B]. split; [right; split; [reflexivity|right; split; [reflexivity|exact E]]|]. split; [|split; [|split; assumption]]; [apply (no_early (u "-->") s (List.length s) s [] (or_introl Ei) (eq_sym (app_nil_r s)) (le_n _))|apply (no_early (u "--!>") s (List.length s) s [] (or_introl Ej) (eq_sym (app_nil_r s)) (le_n _))]; discriminate.
Qed.

(* ---------- tags ---------- *)
Lemma space_in c : space c = true <-> In c [9; 10; 12; 13; 32].
Proof. unfold space, mem. cbn [existsb In]. rewrite !orb_true_iff, !N.eqb_eq. intuition. Qed.
Lemma dw_blank s : exists b, s = b ++ drop_while space s /\ blank b /\ match drop_while space s with c :: _ => ~ In c [9; 10; 12; 13; 32] | [] => True end.
Proof.
  induction s as [|c s (b & E & B & H)]; [exists []; split; [reflexivity|]; split; [intros ? []|exact Logic.I]|]. cbn [drop_while]. destruct (space c) eqn:Sc.
  - exists (c :: b). split; [cbn [app]; f_equal; exact E|]. split; [|exact H]. intros x [<-|I]; [apply space_in; exact Sc|exact (B x I)].
  - exists []. split; [reflexivity|]. split; [intros ? []|]. intros I. apply space_in in I. congruence.
Qed.
Lemma blank_junk b w l : blank b -> attributes w l -> attributes (b ++ w) l.
Proof.
  intros B H. induction b as [|c b IH]; [exact H|]. cbn [app]. apply AJunk; [|apply IH; intros x I; apply B; right; exact I]. pose proof (B c (or_introl eq_refl)) as I. cbn [In] in *. intuition.
Qed.
Lemma stop_char c : attr_name_stop c = true <-> ~ name_char c.
Proof.
  unfold name_char. destruct (attr_name_stop c) eqn:E.
  - split; [|trivial]. intros _ H. apply H. apply StrFacts.mem_In. exact E.
  - split; [discriminate|]. intros H. exfalso. apply H. intros I. apply StrFacts.mem_In in I. unfold attr_name_stop in E. congruence.
Qed.
Lemma stop_false c : attr_name_stop c = false -> name_char c.
Proof. intros E I. apply StrFacts.mem_In in I. unfold attr_name_stop in E. congruence. Qed.
Lemma value_stops c : value_stop c = true <-> In c [9; 10; 12; 13; 32; 62].
Proof. unfold value_stop, mem. cbn [existsb In]. rewrite !orb_true_iff, !N.eqb_eq. intuition. Qed.
Lemma value_shape s v r : read_value s = Some (v, r) -> exists b, blank b /\
  ((exists q, In q [34; 39] /\ ~ In q v /\ s = b ++ q :: v ++ q :: r) \/
   (s = b ++ v ++ r /\ (forall c, In c v -> ~ In c [9; 10; 12; 13; 32; 62]) /\ match v ++ r with c :: _ => ~ In c [9; 10; 12; 13; 32; 34; 39] | [] => True end /\ match r with c :: _ => In c [9; 10; 12; 13; 32; 62] | [] => True end)).
Proof.
  unfold read_value. cbv zeta. destruct (dw_blank s) as (b & Eb & B & H). destruct (drop_while space s) as [|q t].
  - intros K. injection K as <- <-. exists b. split; [exact B|]. right. rewrite Eb. split; [reflexivity|]. split; [intros ? []|]. split; exact Logic.I.
  - destruct ((q =? 34) || (q =? 39)) eqn:Q.
    + destruct (find_char q t) as [k|] eqn:E; [|discriminate]. apply find_char_Some in E as (x & y & -> & <- & Nx). intros K. rewrite firstn_app, Nat.sub_diag, firstn_all, app_nil_r in K. replace (List.length x + 1)%nat with (List.length (x ++ [q])) in K by (rewrite app_length; reflexivity).
      replace (x ++ q :: y) with ((x ++ [q]) ++ y) in K by (rewrite <- app_assoc; reflexivity). rewrite skipn_app, Nat.sub_diag, skipn_all in K. cbn [skipn app] in K. injection K as <- <-. exists b. split; [exact B|]. left. exists q. split; [apply orb_true_iff in Q as [Q|Q]; apply N.eqb_eq in Q; subst q; cbn; tauto|]. split; [exact Nx|exact Eb].
    + pose proof (drop_while_app (fun c => negb (value_stop c)) (q :: t)) as E1. assert (Hv : forall c, In c (take_while (fun c => negb (value_stop c)) (q :: t)) -> ~ In c [9; 10; 12; 13; 32; 62]).
      { intros c I J. apply (proj1 (forallb_forall _ _) (StrFacts.take_while_all _ _)) in I. cbv beta in I. apply value_stops in J. rewrite J in I. discriminate I. }
      assert (Hd : match drop_while (fun c => negb (value_stop c)) (q :: t) with c :: _ => In c [9; 10; 12; 13; 32; 62] | [] => True end).
      { destruct (drop_while (fun c => negb (value_stop c)) (q :: t)) as [|z w] eqn:D; [exact Logic.I|]. apply value_stops. pose proof (drop_while_head _ _ _ _ D) as K. cbv beta in K. apply negb_false_iff in K. exact K. }
      set (x := take_while _ (q :: t)) in *. set (y := drop_while _ (q :: t)) in *. clearbody x y. intros K. injection K as <- <-. exists b. split; [exact B|]. right. split; [rewrite <- E1; exact Eb|]. split; [exact Hv|]. split; [|exact Hd].
      rewrite <- E1. intros I. apply orb_false_iff in Q as [Q1 Q2]. apply N.eqb_neq in Q1, Q2. apply H. cbn [In] in *. intuition congruence.
Qed.
Lemma pairs_none fuel acc : tag_closed (scan_pairs fuel acc []) = false.
Proof. destruct fuel; reflexivity. Qed.
Lemma pairs_closed fuel : forall acc s, tag_closed (scan_pairs fuel acc s) = true -> exists w ps, s = w ++ 62 :: rest (scan_pairs fuel acc s) /\ pairs (scan_pairs fuel acc s) = acc ++ ps /\ attributes w ps.
Proof.
  induction fuel as [|fuel IH]; intros acc s; cbn [scan_pairs]; [discriminate|]. destruct (dw_blank s) as (a0 & E0 & B0 & H0). destruct (drop_while space s) as [|ch t]; [discriminate|].
  destruct (N.eqb_spec ch 62) as [->|Nc]; [intros _; exists a0, []; rewrite app_nil_r; split; [exact E0|]; split; [reflexivity|]; rewrite <- (app_nil_r a0); apply blank_junk; [exact B0|constructor]|].
  destruct ((ch =? 47) && starts [62] t) eqn:Q.
  { apply andb_true_iff in Q as [Q1 Q]. apply N.eqb_eq in Q1. subst ch. apply starts_spec in Q as [z ->]. intros _. exists (a0 ++ [47]), []. split; [rewrite <- app_assoc; exact E0|]. split; [cbn; rewrite app_nil_r; reflexivity|]. apply blank_junk; [exact B0|]. apply AJunk; [cbn; tauto|constructor]. }
  pose proof (drop_while_app (fun c => negb (attr_name_stop c)) (ch :: t)) as E1. assert (Hk : forall c, In c (take_while (fun c => negb (attr_name_stop c)) (ch :: t)) -> name_char c).
  { intros c I. apply (proj1 (forallb_forall _ _) (StrFacts.take_while_all _ _)) in I. cbv beta in I. apply negb_true_iff in I. exact (stop_false c I). }
  assert (Hy : match drop_while (fun c => negb (attr_name_stop c)) (ch :: t) with c :: _ => ~ name_char c | [] => True end).
  { destruct (drop_while (fun c => negb (attr_name_stop c)) (ch :: t)) as [|z y] eqn:D; [exact Logic.I|]. pose proof (drop_while_head _ _ _ _ D) as K. cbv beta in K. apply negb_false_iff in K. apply stop_char. exact K. }
  destruct (take_while (fun c => negb (attr_name_stop c)) (ch :: t)) as [|k0 nm0] eqn:T.
  { intros C. destruct (IH _ _ C) as (w & ps & Ew & Ep & A). exists (a0 ++ ch :: w), ps. split; [rewrite E0, Ew at 1; rewrite <- app_assoc; reflexivity|]. split; [exact Ep|]. apply blank_junk; [exact B0|]. apply AJunk; [|exact A].
    cbn [take_while] in T. destruct (attr_name_stop ch) eqn:Sc; [|discriminate T]. apply StrFacts.mem_In in Sc. cbn [In] in *. intuition congruence. }
  set (y := drop_while (fun c => negb (attr_name_stop c)) (ch :: t)) in *. clearbody y. assert (k0 = ch) as -> by (cbn [app] in E1; congruence). assert (An : attribute_name (ch :: nm0)).
  { split; [discriminate|]. split; [exact Hk|]. intros ->. apply H0. cbn. tauto. }
  destruct (dw_blank y) as (a2 & E2 & B2 & H2). destruct (drop_while space y) as [|e s2]; [rewrite pairs_none; discriminate|].
  assert (H13 : match a2 with c :: _ => c <> 13 | [] => True end).
  { destruct a2 as [|x a2]; [exact Logic.I|]. intros ->. rewrite E2 in Hy. cbn [app] in Hy. apply Hy. intros I. cbn in I. intuition discriminate. }
  destruct (N.eqb_spec e 61) as [->|Ne].
  - destruct (read_value s2) as [[v s3]|] eqn:Rv; [|discriminate]. intros C. destruct (IH _ _ C) as (w & ps & Ew & Ep & A). rewrite Ep. destruct (value_shape _ _ _ Rv) as (b & B & [(q & Iq & Nq & Es)|(Es & Hv & Hd & Hr)]).
    + exists (a0 ++ (ch :: nm0) ++ a2 ++ 61 :: b ++ q :: v ++ q :: w), ((ch :: nm0, v) :: ps). split; [|split; [rewrite <- app_assoc; reflexivity|apply blank_junk; [exact B0|apply AQuoted; assumption]]].
      rewrite E0, E1, E2, Es, Ew at 1. rewrite <- ?app_assoc. cbn [app]. rewrite <- ?app_assoc. cbn [app]. rewrite <- ?app_assoc. cbn [app]. rewrite <- ?app_assoc. reflexivity.
    + exists (a0 ++ (ch :: nm0) ++ a2 ++ 61 :: b ++ v ++ w), ((ch :: nm0, v) :: ps). split; [|split; [rewrite <- app_assoc; reflexivity|apply blank_junk; [exact B0|apply AUnquoted; try assumption]]].
      * rewrite E0, E1, E2, Es, Ew at 1. rewrite <- ?app_assoc. cbn [app]. rewrite <- ?app_assoc. cbn [app]. rewrite <- ?app_assoc. reflexivity.
      * rewrite Ew in Hd. destruct v as [|v0 v]; [|exact Hd]. destruct w as [|w0 w]; [exact Logic.I|exact Hd].
      * rewrite Ew in Hr. destruct w as [|w0 w]; [exact Logic.I|]. cbn [app] in Hr. destruct (N.eq_dec w0 62) as [->|N62]; [|cbn [In] in *; intuition congruence]. exfalso. inversion A; subst.
        -- cbn [In] in *. intuition congruence.
        -- match goal with H : attribute_name _ |- _ => destruct H as (X & Y & Z) end. destruct k; [contradiction|]. assert (n = 62) as -> by (cbn [app] in *; congruence). apply (Y 62 (or_introl eq_refl)). cbn. tauto.
        -- match goal with H : attribute_name _ |- _ => destruct H as (X & Y & Z) end. destruct k; [contradiction|]. assert (n = 62) as -> by (cbn [app] in *; congruence). apply (Y 62 (or_introl eq_refl)). cbn. tauto.
        -- match goal with H : attribute_name _ |- _ => destruct H as (X & Y & Z) end. destruct k; [contradiction|]. assert (n = 62) as -> by (cbn [app] in *; congruence). apply (Y 62 (or_introl eq_refl)). cbn. tauto.
  - intros C. destruct (IH _ _ C) as (w & ps & Ew & Ep & A). rewrite Ep. exists (a0 ++ (ch :: nm0) ++ a2 ++ w), ((ch :: nm0, []) :: ps). split; [|split; [rewrite <- app_assoc; reflexivity|apply blank_junk; [exact B0|apply AName; try assumption]]].
    + rewrite E0, E1, E2, Ew at 1. rewrite <- ?app_assoc. reflexivity.
    + rewrite E2, Ew in Hy. destruct a2 as [|x a2]; [|exact Hy]. destruct w as [|w0 w]; [exact Logic.I|exact Hy].
    + destruct w as [|w0 w]; [exact Logic.I|]. assert (w0 = e) as -> by (cbn [app] in Ew; congruence). cbn [In] in *. intuition congruence.
Qed.
Lemma decoded_spec v w : decoded_value v = Some w -> decode_entities_in_text v true = Some w.
Proof.
  unfold decoded_value. destruct (mem 38 v) eqn:M; [trivial|]. intros H. injection H as <-. apply EntitiesProofs.decode_no_amp. apply AttrFinal.mem_none. exact M.
Qed.
Lemma store_first ps : forall a d, store a ps = Some d -> exists l, Forall2 attribute_of ps l /\ d = a ++ filter (fun p => negb (has_key (fst p) a)) (first_wins l).
Proof.
  induction ps as [|[k v] ps IH]; intros a d E; cbn [store] in E; [injection E as <-; exists []; split; [constructor|cbn; rewrite app_nil_r; reflexivity]|].
  destruct (decoded_value v) as [w|] eqn:Dv; [|discriminate E]. cbv zeta in E. rewrite !no_nul_map in E. set (key := map nul (lower k)) in *. apply decoded_spec in Dv. destruct (has_key key a) eqn:Hk.
  - destruct (IH _ _ E) as (l & F & ->). exists ((key, map nul w) :: l). split; [constructor; [split; [reflexivity|exists w; split; [exact Dv|reflexivity]]|exact F]|]. f_equal. cbn [first_wins filter fst]. rewrite Hk. cbn [negb].
    generalize (first_wins l). intros m. induction m as [|[x y] m IHm]; [reflexivity|]. cbn [filter fst]. destruct (str_eqb x key) eqn:Ex; cbn [negb filter fst].
    + apply StrFacts.str_eqb_eq in Ex. subst x. rewrite Hk. cbn [negb]. exact IHm.
    + destruct (has_key x a); cbn [negb]; [exact IHm|f_equal; exact IHm].
  - destruct (IH _ _ E) as (l & F & ->). exists ((key, map nul w) :: l). split; [constructor; [split; [reflexivity|exists w; split; [exact Dv|reflexivity]]|exact F]|]. rewrite <- app_assoc. f_equal. cbn [first_wins filter fst]. rewrite Hk. cbn [negb app]. f_equal.
    generalize (first_wins l). intros m. induction m as [|[x y] m IHm]; [reflexivity|]. cbn [filter fst]. match goal with |- (if negb ?h then _ else _) = _ => assert (Q : h = has_key x a || str_eqb x key) by (unfold has_key; rewrite existsb_app; cbn [existsb fst]; rewrite orb_false_r; reflexivity) end. rewrite Q, IHm.
    destruct (str_eqb x key); cbn [negb]; [rewrite orb_true_r; reflexivity|]. rewrite orb_false_r. cbn [filter fst]. reflexivity.
Qed.
Lemma store_tag w ps d : attributes w ps -> store [] ps = Some d -> tag_attributes w d.
Proof.
  intros A E. destruct (store_first _ _ _ E) as (l & F & ->). exists ps, l. split; [exact A|]. split; [exact F|]. cbn [app]. generalize (first_wins l). intros m. induction m as [|p m IH]; [reflexivity|]. cbn [filter]. change (has_key (fst p) []) with false. cbn [negb]. f_equal. exact IH.
Qed.
Lemma first_wins_nodup l : NoDup (map fst (first_wins l)).
Proof.
  induction l as [|[k v] l IH]; [constructor|]. cbn [first_wins map fst]. constructor.
  - intros I. apply in_map_iff in I as ([x y] & E & I). cbn [fst] in E. subst x. apply filter_In in I as [_ I]. cbn [fst] in I. rewrite StrFacts.str_eqb_refl in I. discriminate I.
  - revert IH. generalize (first_wins l). intros m. induction m as [|[x y] m IHm]; [constructor|]. cbn [map fst filter]. intros H. inversion H; subst. destruct (str_eqb x k); cbn [negb]; [apply IHm; assumption|]. cbn [map fst]. constructor; [|apply IHm; assumption]. intros I. apply in_map_iff in I as (z & Ez & I). apply filter_In in I as [I _]. apply H2. rewrite <- Ez. apply in_map. exact I.
Qed.
Lemma tagend_at q : forall s e, find_tag_end q s = Some e -> s = firstn e s ++ 62 :: skipn (e + 1) s.
Proof.
  intros s; revert q; induction s as [|c t IH]; intros q e H; [discriminate H|]. cbn [find_tag_end] in H. destruct q as [q|].
  - destruct (find_tag_end _ t) as [k|] eqn:E; [|discriminate H]. assert (e = S k) as -> by (cbn in H; congruence). cbn [firstn skipn Nat.add app]. f_equal. exact (IH _ _ E).
  - destruct ((c =? 34) || (c =? 39)).
    + destruct (find_tag_end (Some c) t) as [k|] eqn:E; [|discriminate H]. assert (e = S k) as -> by (cbn in H; congruence). cbn [firstn skipn Nat.add app]. f_equal. exact (IH _ _ E).
    + destruct (N.eqb_spec c 62) as [->|]; [assert (e = O) as -> by congruence; reflexivity|]. destruct (find_tag_end None t) as [k|] eqn:E; [|discriminate H]. assert (e = S k) as -> by (cbn in H; congruence). cbn [firstn skipn Nat.add app]. f_equal. exact (IH _ _ E).
Qed.
(* the grammar of attributes is complete for the scanner *)
Lemma attr_head c w l : attributes (c :: w) l -> c <> 62.
Proof.
  assert (G : forall k y, attribute_name k -> c :: w = k ++ y -> c <> 62). { intros k y (X & Y & Z) E ->. destruct k as [|k0 k]; [contradiction|]. assert (k0 = 62) as -> by (cbn [app] in E; congruence). apply (Y 62 (or_introl eq_refl)). cbn. tauto. }
  intros A. inversion A; subst; try (eapply G; [eassumption|symmetry; eassumption]). intros ->. cbn [In] in *. intuition discriminate.
Qed.
Lemma attr_nil l : attributes [] l -> l = [].
Proof.
  assert (G : forall k y, attribute_name k -> [] <> k ++ y). { intros k y (X & _) E. destruct k; [congruence|discriminate E]. }
  intros A. inversion A; subst; [reflexivity| | |]; match goal with H : _ = [] |- _ => exfalso; eapply G; [eassumption|symmetry; exact H] end.
Qed.
Lemma dw_run (p : N -> bool) a b : (forall c, In c a -> p c = true) -> match b with c :: _ => p c = false | [] => True end -> drop_while p (a ++ b) = b /\ take_while p (a ++ b) = a.
Proof.
  intros H K. induction a as [|c a IH]; cbn [app].
  - destruct b as [|c b]; [split; reflexivity|]. cbn [drop_while take_while]. rewrite K. split; reflexivity.
  - cbn [drop_while take_while]. rewrite (H c (or_introl eq_refl)). destruct (IH (fun x I => H x (or_intror I))) as [-> ->]. split; reflexivity.
Qed.
Lemma not_space c : ~ In c [9; 10; 12; 13; 32] -> space c = false.
Proof. intros H. destruct (space c) eqn:E; [|reflexivity]. destruct H. apply space_in. exact E. Qed.
Lemma blank_dw b x : blank b -> match x with c :: _ => ~ In c [9; 10; 12; 13; 32] | [] => True end -> drop_while space (b ++ x) = x.
Proof. intros B H. apply (dw_run space b x); [intros c I; apply space_in; exact (B c I)|]. destruct x; [exact Logic.I|apply not_space; exact H]. Qed.
Lemma name_run k x : attribute_name k -> match x with c :: _ => ~ name_char c | [] => True end -> take_while (fun c => negb (attr_name_stop c)) (k ++ x) = k /\ drop_while (fun c => negb (attr_name_stop c)) (k ++ x) = x.
Proof.
  intros (_ & N & _) H. assert (Q := dw_run (fun c => negb (attr_name_stop c)) k x). destruct Q as [A B]; [|destruct x; [exact Logic.I|]; apply negb_false_iff, stop_char; exact H|split; assumption]. intros c I. apply negb_true_iff. destruct (attr_name_stop c) eqn:E; [|reflexivity]. apply stop_char in E. destruct (E (N c I)).
Qed.
Lemma scan_step fuel acc k x : attribute_name k -> match x with c :: _ => ~ name_char c | [] => False end -> scan_pairs (S fuel) acc (k ++ x) =
  match drop_while space x with
  | e :: s2 => if e =? 61 then match read_value s2 with None => Scanned acc false [] false | Some (v, s3) => scan_pairs fuel (acc ++ [(k, v)]) s3 end else scan_pairs fuel (acc ++ [(k, [])]) (e :: s2)
  | [] => scan_pairs fuel (acc ++ [(k, [])]) []
  end.
Proof.
  intros An H. destruct (name_run k x An) as [T D]; [destruct x; [exact Logic.I|exact H]|]. destruct An as (X & N & Z). destruct k as [|c k]; [contradiction|]. cbn [scan_pairs app]. assert (Nc : name_char c) by (apply N; left; reflexivity). cbn [app] in T, D.
  assert (Sp : space c = false) by (apply not_space; intros I; cbn [In] in I; intuition (subst; try congruence); apply Nc; cbn; tauto). assert (Dw : drop_while space (c :: k ++ x) = c :: k ++ x) by (cbn [drop_while]; rewrite Sp; reflexivity). rewrite Dw.
  destruct (N.eqb_spec c 62) as [->|_]; [destruct Nc; cbn; tauto|]. destruct (N.eqb_spec c 47) as [->|_]; [destruct Nc; cbn; tauto|]. cbn [andb]. rewrite T, D. destruct (drop_while space x); reflexivity.
Qed.
Lemma quoted_value b q v x : blank b -> In q [34; 39] -> ~ In q v -> read_value (b ++ q :: v ++ q :: x) = Some (v, x).
Proof.
  intros B Iq Nv. unfold read_value. rewrite blank_dw; [|exact B|intros I; cbn [In] in *; intuition (subst; discriminate)]. assert (Q : (q =? 34) || (q =? 39) = true) by (destruct Iq as [<-|[<-|[]]]; reflexivity). rewrite Q.
  assert (F : find_char q (v ++ q :: x) = Some (List.length v)). { clear -Nv. induction v as [|y v IH]; cbn [app find_char]; [rewrite N.eqb_refl; reflexivity|]. destruct (N.eqb_spec y q) as [->|_]; [destruct Nv; left; reflexivity|]. rewrite IH; [reflexivity|]. intros I. apply Nv. right. exact I. }
  rewrite F. rewrite firstn_app, Nat.sub_diag, firstn_all, app_nil_r. replace (List.length v + 1)%nat with (List.length (v ++ [q])) by (rewrite app_length; reflexivity). replace (v ++ q :: x) with ((v ++ [q]) ++ x) by (rewrite <- app_assoc; reflexivity). rewrite skipn_app, Nat.sub_diag, skipn_all. reflexivity.
Qed.
Lemma bare_value b v x : blank b -> (forall c, In c v -> ~ In c [9; 10; 12; 13; 32; 62]) -> match v ++ x with c :: _ => ~ In c [9; 10; 12; 13; 32; 34; 39] | [] => False end -> match x with c :: _ => In c [9; 10; 12; 13; 32; 62] | [] => True end -> read_value (b ++ v ++ x) = Some (v, x).
Proof.
  intros B Hv Hd Hx. unfold read_value. rewrite blank_dw; [|exact B|destruct (v ++ x); [exact Logic.I|intros I; apply Hd; cbn [In] in *; tauto]].
  destruct (dw_run (fun c => negb (value_stop c)) v x) as [D T]; [intros c I; apply negb_true_iff; destruct (value_stop c) eqn:E; [|reflexivity]; apply value_stops in E; destruct (Hv c I E)|destruct x; [exact Logic.I|apply negb_false_iff, value_stops; exact Hx]|]. rewrite T, D.
  destruct (v ++ x) as [|c y] eqn:E; [destruct Hd|]. assert (Q : (c =? 34) || (c =? 39) = false) by (apply orb_false_iff; split; apply N.eqb_neq; intros ->; apply Hd; cbn; tauto). rewrite Q. reflexivity.
Qed.
Lemma scan_attributes w raws : attributes w raws -> forall fuel acc r, (List.length w < fuel)%nat -> exists sc, scan_pairs fuel acc (w ++ 62 :: r) = Scanned (acc ++ raws) sc r true.
Proof.
  intros A. induction A as [|c w l Ic A IH|k b w l An Bb Hs Hw A IH|k a b q v w l An Ba H13 Bb Iq Nq A IH|k a b v w l An Ba H13 Bb Hv Hd Hw A IH]; intros fuel acc r L.
  - destruct fuel; [cbn in L; lia|]. exists false. cbn [scan_pairs app]. rewrite app_nil_r. reflexivity.
  - cbn [List.length] in L. destruct fuel as [|fuel]; [lia|]. cbn [app]. destruct (space c) eqn:Sc.
    + destruct (IH (S fuel) acc r ltac:(lia)) as [sc E]. exists sc. rewrite <- E. cbn [scan_pairs drop_while]. rewrite Sc. reflexivity.
    + assert (Ic' : c = 47 \/ c = 61). { destruct (N.eq_dec c 47); [left; assumption|]. destruct (N.eq_dec c 61); [right; assumption|]. assert (space c = true) by (apply space_in; cbn [In] in *; intuition congruence). congruence. }
      cbn [scan_pairs]. assert (Dw : drop_while space (c :: w ++ 62 :: r) = c :: w ++ 62 :: r) by (cbn [drop_while]; rewrite Sc; reflexivity). rewrite Dw. assert (N62 : (c =? 62) = false) by (destruct Ic' as [-> | ->]; reflexivity). rewrite N62.
      destruct ((c =? 47) && starts [62] (w ++ 62 :: r)) eqn:Q.
      * apply andb_true_iff in Q as [_ Q]. destruct w as [|w0 w].
        -- rewrite (attr_nil _ A), app_nil_r. exists true. reflexivity.
        -- exfalso. pose proof (attr_head _ _ _ A) as H. cbn [app starts] in Q. rewrite andb_true_r in Q. apply N.eqb_eq in Q. congruence.
      * assert (T : take_while (fun c => negb (attr_name_stop c)) (c :: w ++ 62 :: r) = []) by (cbn [take_while]; destruct Ic' as [-> | ->]; reflexivity). rewrite T. apply IH. lia.
  - rewrite <- !app_assoc. destruct fuel as [|fuel]; [lia|]. rewrite !app_length in L. rewrite scan_step; [|exact An|].
    2:{ rewrite app_assoc. destruct (b ++ w) as [|x y]; cbn [app]; [intros H; apply H; cbn; tauto|exact Hs]. }
    rewrite blank_dw; [|exact Bb|]. 2:{ destruct w as [|x y]; cbn [app]; [cbn; intuition discriminate|]. intros I. apply Hw. cbn [In] in *. tauto. }
    assert (Lk : (List.length w < fuel)%nat) by (destruct An as (X & _); destruct k; [congruence|cbn [List.length] in L; lia]). destruct (IH fuel (acc ++ [(k, [])]) r Lk) as [sc E]. exists sc. rewrite <- app_assoc in E. cbn [app] in E. etransitivity; [|exact E].
    destruct w as [|x y]; cbn [app]; [reflexivity|]. destruct (N.eqb_spec x 61) as [->|_]; [destruct Hw; cbn; tauto|reflexivity].
  - replace ((k ++ a ++ 61 :: b ++ q :: v ++ q :: w) ++ 62 :: r) with (k ++ a ++ 61 :: b ++ q :: v ++ q :: w ++ 62 :: r) by (repeat (rewrite <- app_assoc; cbn [app]); reflexivity). destruct fuel as [|fuel]; [lia|]. rewrite scan_step; [|exact An|].
    2:{ destruct a as [|x y]; cbn [app]; [intros H; apply H; cbn; tauto|]. intros H. apply H. pose proof (Ba x (or_introl eq_refl)) as I. cbn [In] in *. intuition congruence. }
    rewrite blank_dw; [|exact Ba|cbn; intuition discriminate]. cbn [N.eqb]. change (61 =? 61) with true. cbv iota. rewrite quoted_value by assumption. repeat (rewrite ?app_length in L; cbn [List.length] in L).
    destruct (IH fuel (acc ++ [(k, v)]) r ltac:(lia)) as [sc E]. exists sc. rewrite <- app_assoc in E. exact E.
  - replace ((k ++ a ++ 61 :: b ++ v ++ w) ++ 62 :: r) with (k ++ a ++ 61 :: b ++ v ++ w ++ 62 :: r) by (repeat (rewrite <- app_assoc; cbn [app]); reflexivity). destruct fuel as [|fuel]; [lia|]. rewrite scan_step; [|exact An|].
    2:{ destruct a as [|x y]; cbn [app]; [intros H; apply H; cbn; tauto|]. intros H. apply H. pose proof (Ba x (or_introl eq_refl)) as I. cbn [In] in *. intuition congruence. }
    rewrite blank_dw; [|exact Ba|cbn; intuition discriminate]. change (61 =? 61) with true. cbv iota. rewrite bare_value; [|exact Bb|exact Hv| |].
    + repeat (rewrite ?app_length in L; cbn [List.length] in L). destruct (IH fuel (acc ++ [(k, v)]) r ltac:(lia)) as [sc E]. exists sc. rewrite <- app_assoc in E. exact E.
    + rewrite app_assoc. destruct (v ++ w); cbn [app]; [cbn; intuition discriminate|exact Hd].
    + destruct w as [|x y]; cbn [app]; [cbn; tauto|]. cbn [In] in *. tauto.
Qed.
(* what find_tag_end passes over *)
Lemma find_quote q : forall s e, find_tag_end (Some q) s = Some e -> exists v r, s = v ++ q :: r /\ ~ In q v /\ exists e', find_tag_end None r = Some e' /\ e = (List.length v + 1 + e')%nat.
Proof.
  induction s as [|c s IH]; intros e H; [discriminate H|]. cbn [find_tag_end] in H. destruct (N.eqb_spec c q) as [->|Nc].
  - destruct (find_tag_end None s) as [k|] eqn:E; [|discriminate H]. exists [], s. split; [reflexivity|]. split; [intros []|]. exists k. split; [exact E|]. cbn in H. injection H as <-. reflexivity.
  - destruct (find_tag_end (Some q) s) as [k|] eqn:E; [|discriminate H]. destruct (IH k eq_refl) as (v & r & -> & Nv & e' & E' & ->). exists (c :: v), r. split; [reflexivity|]. split; [intros [K|K]; [congruence|contradiction]|]. exists e'. split; [exact E'|]. cbn in H. injection H as <-. reflexivity.
Qed.
Lemma tail_found n : forall s e, (List.length s <= n)%nat -> find_tag_end None s = Some e -> tail (firstn e s).
Proof.
  induction n as [|n IH]; intros s e L H; (destruct s as [|c s]; [discriminate H|]); cbn [List.length] in L; [lia|]. cbn [find_tag_end] in H. destruct ((c =? 34) || (c =? 39)) eqn:Q.
  - destruct (find_tag_end (Some c) s) as [k|] eqn:E; [|discriminate H]. cbn in H. injection H as <-. destruct (find_quote _ _ _ E) as (v & r & -> & Nv & e' & E' & ->). cbn [firstn]. rewrite firstn_app. replace (List.length v + 1 + e' - List.length v)%nat with (S e') by lia. rewrite firstn_all2 by lia. cbn [firstn].
    apply TQuoted; [apply orb_true_iff in Q as [Q|Q]; apply N.eqb_eq in Q; subst c; cbn; tauto|exact Nv|]. apply IH; [|exact E']. rewrite app_length in L. cbn [List.length] in L. lia.
  - destruct (N.eqb_spec c 62) as [->|N62]; [cbn in H; injection H as <-; constructor|]. destruct (find_tag_end None s) as [k|] eqn:E; [|discriminate H]. cbn in H. injection H as <-. cbn [firstn]. apply orb_false_iff in Q as [Q1 Q2]. apply N.eqb_neq in Q1, Q2. apply TChar; [cbn [In]; intuition congruence|]. apply IH; [lia|exact E].
Qed.
Lemma tail_end w r : tail w -> find_tag_end None (w ++ 62 :: r) = Some (List.length w).
Proof.
  intros H. induction H as [|c w Nc H IH|q v w Iq Nq H IH]; [reflexivity| |].
  - cbn [app find_tag_end List.length]. assert (Q : (c =? 34) || (c =? 39) = false) by (apply orb_false_iff; split; apply N.eqb_neq; intros ->; apply Nc; cbn; tauto). rewrite Q. destruct (N.eqb_spec c 62) as [->|_]; [destruct Nc; cbn; tauto|]. rewrite IH. reflexivity.
  - replace ((q :: v ++ q :: w) ++ 62 :: r) with (q :: v ++ q :: w ++ 62 :: r) by (cbn [app]; rewrite <- app_assoc; reflexivity). cbn [find_tag_end List.length]. assert (Q : (q =? 34) || (q =? 39) = true) by (destruct Iq as [<-|[<-|[]]]; reflexivity). rewrite Q.
    assert (G : find_tag_end (Some q) (v ++ q :: w ++ 62 :: r) = Some (List.length v + S (List.length w))%nat).
    { clear -Nq IH. induction v as [|c v IHv]; cbn [app find_tag_end]; [rewrite N.eqb_refl, IH; reflexivity|]. destruct (N.eqb_spec c q) as [->|_]; [destruct Nq; left; reflexivity|]. rewrite IHv; [reflexivity|]. intros I. apply Nq. right. exact I. }
    rewrite G. cbn [option_map]. f_equal. rewrite app_length. cbn [List.length]. lia.
Qed.
Lemma tail_none s : find_tag_end None s = None -> never_ends s.
Proof. intros H w r -> T. rewrite (tail_end w r T) in H. discriminate H. Qed.
(* where the end tag of raw text is *)
Definition end_tag_at (name s : str) (p q : nat) : Prop := exists n after, s = firstn p s ++ 60 :: 47 :: n ++ after /\ alow n = name /\ (p < q)%nat /\
  (match after with c :: _ => ends_name c | [] => false end = true) /\ skipn q s = match find_tag_end None after with None => [] | Some e => skipn (e + 1) after end.
Lemma at_closes name s : forallb is_lower_ascii name = true -> at_tag (tag name) s = true <-> StreamSpec.closes name s.
Proof.
  intros Hn. rewrite at_tag_rest. split.
  - intros A. apply andb_true_iff in A as [A B]. unfold hits in A. destruct (strip_ci (tag name) s) as [r|] eqn:Es; [|discriminate A]. destruct (strip_some _ _ _ Es) as (L2 & -> & Al). cbn [tag List.length] in L2, Al, B. destruct s as [|x [|y m]]; try (cbn in L2; lia). cbn [firstn alow map] in Al. injection Al as Ax Ay Am.
    assert (x = 60) as -> by (apply N.eqb_eq; rewrite <- ScanRawProofs.alow_lt, Ax; reflexivity). assert (y = 47) as -> by (apply N.eqb_eq; rewrite <- ScanRawProofs.alow_slash, Ay; reflexivity). cbn [skipn] in B. exists (firstn (List.length name) m), (skipn (List.length name) m). split; [rewrite firstn_skipn; reflexivity|]. split; [exact Am|].
    destruct (skipn (List.length name) m); [discriminate B|]. apply StrFacts.mem_In. exact B.
  - intros (n & r & -> & Al & Hr). assert (Ln : List.length n = List.length name) by (rewrite <- Al; unfold alow; rewrite map_length; reflexivity). apply andb_true_iff. split.
    + unfold hits. rewrite strip_of; [reflexivity| |]; cbn [tag List.length]; [rewrite app_length; lia|]. cbn [firstn]. rewrite <- Ln, firstn_app, Nat.sub_diag, firstn_all, app_nil_r. rewrite <- Al. reflexivity.
    + cbn [tag List.length skipn]. rewrite <- Ln, skipn_app, Nat.sub_diag, skipn_all. cbn [skipn app]. destruct r; [destruct Hr|]. apply StrFacts.mem_In. exact Hr.
Qed.
Definition first_end (name s : str) (p : nat) : Prop := forall a b, s = a ++ b -> (List.length a < p)%nat -> ~ StreamSpec.closes name b.
Lemma rawtext_shape name s p q : forallb is_lower_ascii name = true -> find_rawtext_end_tag name s = Some (p, q) -> end_tag_at name s p q /\ first_end name s p.
Proof.
  intros Hn H. rewrite (rawtext_first name Hn) in H. unfold found in H. destruct (lk name MRaw O s) as [i|] eqn:E; [|discriminate H]. injection H as <- <-. destruct (lk_raw_spec name Hn s i E) as (L & A & Fi). split.
  - apply (at_closes name _ Hn) in A. destruct A as (n & r & Es & Al & Hr). assert (Ln : List.length n = List.length name) by (rewrite <- Al; unfold alow; rewrite map_length; reflexivity). exists n, r. split; [rewrite <- Es; symmetry; apply firstn_skipn|]. split; [exact Al|]. assert (Ea : skipn (i + S (S (List.length name))) s = r) by (rewrite <- skipn_sk, Es; cbn [skipn]; rewrite <- Ln, skipn_app, Nat.sub_diag, skipn_all; reflexivity). unfold tag_after. cbn [tag List.length]. rewrite Ea.
    split; [destruct (find_tag_end None r); lia|]. split; [destruct r; [destruct Hr|]; apply StrFacts.mem_In; exact Hr|]. destruct (find_tag_end None r) as [e|]; [|apply skipn_all]. replace (i + S (S (List.length name)) + e + 1)%nat with (i + (S (S (List.length name)) + (e + 1)))%nat by lia. rewrite <- skipn_sk, Es. rewrite <- skipn_sk. cbn [skipn]. rewrite <- Ln, skipn_app, Nat.sub_diag, skipn_all. reflexivity.
  - intros a b -> La C. apply (at_closes name _ Hn) in C. specialize (Fi _ La). rewrite skipn_app, Nat.sub_diag, skipn_all in Fi. cbn [skipn app] in Fi. congruence.
Qed.
Lemma rawtext_none name s p : forallb is_lower_ascii name = true -> find_rawtext_end_tag name s = None -> first_end name s p.
Proof.
  intros Hn H. rewrite (rawtext_first name Hn) in H. unfold found in H. destruct (lk name MRaw O s) as [i|] eqn:E; [discriminate H|]. intros a b -> La C. pose proof (lk_raw_none name Hn _ E (List.length a)) as K. rewrite skipn_app, Nat.sub_diag, skipn_all in K. cbn [skipn app] in K.
  apply (at_closes name _ Hn) in C. rewrite K in C; [discriminate C|]. rewrite app_length. destruct b; [discriminate C|]. cbn [List.length]. lia.
Qed.
Lemma end_tag_shift name s k p q : (k <= List.length s)%nat -> end_tag_at name (skipn k s) p q -> end_tag_at name s (k + p) (k + q).
Proof.
  intros Lk (n & w & E & A & L & B & C). exists n, w. rewrite skipn_sk in C. split; [|split; [exact A|split; [lia|split; assumption]]]. rewrite <- (firstn_skipn k s) at 1. rewrite E at 1. rewrite app_assoc. f_equal.
  rewrite <- (firstn_skipn k s) at 3. rewrite firstn_app. rewrite firstn_firstn, firstn_length. replace (Nat.min (k + p) k) with k by lia. replace (k + p - Nat.min k (List.length s))%nat with p by lia. reflexivity.
Qed.
Lemma end_tag_shift' name s k p q : end_tag_at name (skipn k s) p q -> end_tag_at name s (k + p) (k + q).
Proof.
  intros H. destruct (Nat.le_gt_cases k (List.length s)) as [K|K]; [apply end_tag_shift; assumption|]. destruct H as (n & w & E & _). exfalso. rewrite (skipn_all2 s) in E by lia. destruct p; discriminate E.
Qed.
Lemma script_shape fuel : forall esc dbl off s p q, find_script_go fuel esc dbl off s = Some (p, q) -> exists p' q', p = (off + p')%nat /\ q = (off + q')%nat /\ end_tag_at (u "script") s p' q'.
Proof.
  induction fuel as [|fuel IH]; intros esc dbl off s p q H; [discriminate H|]. cbn [find_script_go] in H. destruct (find_rawtext_end_tag (u "script") s) as [[c n]|] eqn:E; [|discriminate H].
  assert (F : Some (off + c, off + n)%nat = Some (p, q) -> exists p' q', p = (off + p')%nat /\ q = (off + q')%nat /\ end_tag_at (u "script") s p' q').
  { intros K. injection K as <- <-. exists c, n. repeat split. apply rawtext_shape; [reflexivity|exact E]. }
  assert (G : forall a b k, find_script_go fuel a b (off + k) (skipn k s) = Some (p, q) -> exists p' q', p = (off + p')%nat /\ q = (off + q')%nat /\ end_tag_at (u "script") s p' q').
  { intros a b k K. destruct (IH _ _ _ _ _ _ K) as (p' & q' & -> & -> & T). exists (k + p')%nat, (k + q')%nat. split; [lia|]. split; [lia|]. apply end_tag_shift'. exact T. }
  cbv zeta in H. destruct (negb esc); [destruct (find (u "<!--") _); [exact (G _ _ _ H)|exact (F H)]|].
  destruct (match find (u "-->") (firstn c s) with Some e => _ | None => None end); [exact (G _ _ _ H)|]. destruct (if dbl then None else find_script_start_marker c s); [exact (G _ _ _ H)|]. destruct dbl; [|exact (F H)].
  destruct (ascii_find _ _); [|exact (G _ _ _ H)]. destruct (skipn _ s); [exact (G _ _ _ H)|]. destruct (mem _ _); exact (G _ _ _ H).
Qed.
Lemma find_app_pre p x y k : find p x = Some k -> contains p (x ++ y) = true.
Proof. intros H. apply find_Some in H as (a & b & -> & _). apply contains_spec. exists a, (b ++ y). rewrite <- !app_assoc. reflexivity. Qed.
(* without <!-- before it, the end of a script is its first end tag *)
Lemma script_go_off fuel : forall esc dbl off s p q, find_script_go fuel esc dbl off s = Some (p, q) -> (off <= p)%nat.
Proof. intros esc dbl off s p q H. destruct (script_shape _ _ _ _ _ _ _ H) as (p' & q' & -> & _). lia. Qed.
Lemma script_plain s : match find_script_end_tag s with
  | Some (p, q) => contains (u "<!--") (firstn p s) = false -> first_end (u "script") s p
  | None => contains (u "<!--") s = false -> forall p, first_end (u "script") s p
  end.
Proof.
  unfold find_script_end_tag. cbn [find_script_go]. destruct (find_rawtext_end_tag (u "script") s) as [[c n]|] eqn:E; [|intros _ p; apply rawtext_none; [reflexivity|exact E]]. cbv zeta. cbn [negb]. destruct (rawtext_shape (u "script") s c n eq_refl E) as [Sh Fi].
  destruct (find (u "<!--") (firstn c s)) as [k|] eqn:Fk; [|intros _; exact Fi]. destruct (find_at _ _ _ Fk) as [Ek Lk]. change (List.length (u "<!--")) with 4%nat in *. rewrite firstn_length in Lk.
  match goal with |- match find_script_go _ _ _ ?o _ with _ => _ end => set (o1 := o) end. assert (Lo : o1 = (k + 2)%nat) by reflexivity. 
  destruct (find_script_go (List.length s) true false o1 _) as [[p q]|] eqn:G.
  - assert (K : exists p', p = (k + 2 + p')%nat /\ starts [60] (skipn p s) = true).
    { destruct (script_shape _ _ _ _ _ _ _ G) as (p' & q' & -> & _ & T). rewrite Lo. exists p'. split; [reflexivity|]. apply (end_tag_shift' (u "script") s) in T. destruct T as (m & af & Et & _ & Lt & _). 
      assert (Lp : (k + 2 + p' <= List.length s)%nat). { destruct (Nat.le_gt_cases (k + 2 + p') (List.length s)) as [Q|Q]; [exact Q|]. rewrite (firstn_all2 s) in Et by lia. apply (f_equal (@List.length N)) in Et. rewrite app_length in Et. cbn [List.length] in Et. lia. }
      apply starts_spec. exists (47 :: m ++ af). rewrite Et at 1. rewrite skipn_app, firstn_length. replace (k + 2 + p' - Nat.min (k + 2 + p') (List.length s))%nat with O by lia. rewrite skipn_all2 by (rewrite firstn_length; lia). reflexivity. }
    destruct K as (p' & -> & St). intros C. exfalso. assert (D : contains (u "<!--") (firstn (k + 2 + p') s) = true); [|congruence].
    apply contains_spec. assert (Es : s = firstn k (firstn c s) ++ u "<!--" ++ (skipn (k + 4) (firstn c s) ++ skipn c s)) by (rewrite app_assoc, app_assoc, <- (app_assoc _ (u "<!--")), <- Ek; symmetry; apply firstn_skipn).
    assert (Lf : List.length (firstn k (firstn c s)) = k) by (rewrite !firstn_length; lia). destruct p' as [|[|p']].
    + exfalso. rewrite Es in St. rewrite skipn_app, Lf, skipn_all2 in St by lia. replace (k + 2 + 0 - k)%nat with 2%nat in St by lia. discriminate St.
    + exfalso. rewrite Es in St. rewrite skipn_app, Lf, skipn_all2 in St by lia. replace (k + 2 + 1 - k)%nat with 3%nat in St by lia. discriminate St.
    + exists (firstn k (firstn c s)), (firstn p' (skipn (k + 4) (firstn c s) ++ skipn c s)). rewrite Es at 1. rewrite firstn_app, Lf. rewrite firstn_all2 by lia. f_equal. replace (k + 2 + S (S p') - k)%nat with (4 + p')%nat by lia. reflexivity.
  - intros C. exfalso. apply find_app_pre with (y := skipn c s) in Fk. rewrite firstn_skipn in Fk. congruence.
Qed.
Lemma end_tag_shape name s : In name (rawtext_tags ++ rcdata_tags) ->
  match find_end_tag name s with
  | Some (p, q) => end_tag_at name s p q /\ (name <> u "script" -> first_end name s p) /\ (name = u "script" -> contains (u "<!--") (firstn p s) = false -> first_end name s p)
  | None => (name <> u "script" -> forall p, first_end name s p) /\ (name = u "script" -> contains (u "<!--") s = false -> forall p, first_end name s p)
  end.
Proof.
  intros I. assert (Hn : forallb is_lower_ascii name = true) by (repeat (destruct I as [<-|I]; [reflexivity|]); destruct I). unfold find_end_tag. destruct (str_eqb name (u "script")) eqn:E.
  - apply StrFacts.str_eqb_eq in E. subst name. pose proof (script_plain s) as P. destruct (find_script_end_tag s) as [[p q]|] eqn:F.
    + destruct (script_shape _ _ _ _ _ _ _ F) as (p' & q' & -> & -> & T). split; [exact T|]. split; [intros K; destruct (K eq_refl)|intros _; exact P].
    + split; [intros K; destruct (K eq_refl)|intros _; exact P].
  - assert (Ns : name <> u "script") by (intros ->; rewrite StrFacts.str_eqb_refl in E; discriminate E). destruct (find_rawtext_end_tag name s) as [[p q]|] eqn:F.
    + destruct (rawtext_shape name s p q Hn F) as [A B]. split; [exact A|]. split; [intros _; exact B|intros K; congruence].
    + split; [intros _ p; apply rawtext_none; assumption|intros K; congruence].
Qed.

(* ---------- text ---------- *)
Lemma append_none raw nu d : append_text raw nu d = None -> ~ refs_ok false d.
Proof.
  unfold append_text. rewrite crlf_newlines. cbv zeta. destruct raw; cbn [negb andb]; [discriminate|]. intros H R. assert (R' : refs_ok false (if nu then replace_char 0 [65533] (newlines d) else newlines d)) by (destruct nu; [rewrite nul_map; apply refs_nul|]; apply refs_newlines; exact R).
  destruct (mem 38 _) in H; [|discriminate H]. rewrite (c27_exact false _ R') in H. discriminate H.
Qed.
Lemma append_raw nu d : append_text true nu d = Some (if nu then map nul (newlines d) else newlines d).
Proof. unfold append_text. rewrite crlf_newlines. cbn [negb andb]. destruct nu; [rewrite nul_map|]; reflexivity. Qed.
Lemma decode_plain d : mem 38 d = false -> decode_entities_in_text d false = Some d.
Proof. intros H. apply EntitiesProofs.decode_no_amp. apply AttrFinal.mem_none. exact H. Qed.
Lemma append_some nu d v : append_text false nu d = Some v -> decode_entities_in_text (if nu then map nul (newlines d) else newlines d) false = Some v.
Proof.
  unfold append_text. rewrite crlf_newlines. cbv zeta. cbn [negb andb]. intros H. replace (if nu then replace_char 0 [65533] (newlines d) else newlines d) with (if nu then map nul (newlines d) else newlines d) in H by (destruct nu; [rewrite nul_map|]; reflexivity).
  destruct (mem 38 _) eqn:M in H; [exact H|]. rewrite <- H. apply decode_plain. exact M.
Qed.
Lemma ref_weaken t : ref_ok true t = true -> ref_ok false t = true.
Proof. unfold ref_ok. destruct t as [|c t1]; [reflexivity|]. destruct (c =? 35); [trivial|reflexivity]. Qed.
Lemma refs_weaken s : refs_ok true s -> refs_ok false s.
Proof. intros H p t E. apply ref_weaken. exact (H p t E). Qed.
Lemma refs_mid a p q r : refs_ok a (p ++ q ++ r) -> refs_ok a q.
Proof. intros H. apply (refs_cut a q r). intros x t E. apply (H (p ++ x) t). rewrite E, <- app_assoc. reflexivity. Qed.
Lemma refs_suffix a p q : refs_ok a (p ++ q) -> refs_ok a q.
Proof. intros H. apply (refs_mid a p q []). rewrite app_nil_r. exact H. Qed.
