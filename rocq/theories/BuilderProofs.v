From Coq Require Import NArith List Bool String Lia ZifyBool ZifyN ZifyNat.
From Verif Require Import Str StrFacts SerializerModel SerTreeProofs BuilderModel BuilderSpec.
Import ListNotations.
Open Scope list_scope. Open Scope N_scope.

(* ---------- names ---------- *)
Lemma memP : forall c l, mem c l = true <-> In c l.
Proof.
  intros. unfold mem. rewrite existsb_exists. split.
  - intros (x & Hx & E). apply N.eqb_eq in E. subst. exact Hx.
  - intros H. exists c. split; [exact H|apply N.eqb_refl].
Qed.
Lemma memF : forall c l, mem c l = false <-> ~ In c l.
Proof. intros. rewrite <- memP. destruct (mem c l); split; congruence. Qed.

Lemma drop_final_nl_app : forall s, drop_final_nl (s ++ [10]) = s.
Proof. intros. unfold drop_final_nl. rewrite rev_app_distr. cbn. apply rev_involutive. Qed.
Lemma drop_final_nl_cases : forall s, s = drop_final_nl s ++ [10] \/ (s = drop_final_nl s /\ forall r, s <> r ++ [10]).
Proof.
  intros s. destruct s as [|x s] using rev_ind.
  - right. split; [reflexivity|]. intros r E. destruct r; discriminate.
  - destruct (N.eq_dec x 10) as [->|D].
    + left. now rewrite drop_final_nl_app.
    + right. split.
      * unfold drop_final_nl. rewrite rev_app_distr. cbn [rev app].
        destruct x as [|p]; [reflexivity|].
        repeat (destruct p; try reflexivity). congruence.
      * intros r E. apply app_inj_tail in E as [_ E]. congruence.
Qed.

Lemma good_attr_chars : forall k, good_attr k <-> k <> [] /\ forallb attr_name_char k = true.
Proof.
  intros. unfold good_attr. rewrite forallb_forall. split; intros [A B]; (split; [exact A|]); intros c Hc.
  - destruct (B c Hc) as [D E]. unfold attr_name_char. apply negb_true_iff. apply memF.
    unfold ends_name in D. cbn in D |- *. intuition.
  - specialize (B c Hc). unfold attr_name_char in B. apply negb_true_iff in B. apply memF in B.
    unfold ends_name. cbn in B |- *. intuition.
Qed.

Lemma attr_name_re_iff : forall k, attr_name_re k = true <-> taken_attr k.
Proof.
  intros k. unfold taken_attr. rewrite good_attr_chars.
  assert (R : attr_name_re k = true <-> drop_final_nl k <> [] /\ forallb attr_name_char (drop_final_nl k) = true).
  { unfold attr_name_re. destruct (drop_final_nl k); split; try congruence; try tauto.
    intros H; split; [congruence|exact H]. }
  rewrite R. destruct (drop_final_nl_cases k) as [E|[E D]].
  - split.
    + intros H. right. exists (drop_final_nl k). split; [exact E|]. apply good_attr_chars. exact H.
    + intros [[A B]|(k' & E' & G)].
      * rewrite E in B. rewrite forallb_app in B. apply andb_true_iff in B as [_ B]. cbn in B. discriminate.
      * rewrite E', drop_final_nl_app. apply good_attr_chars. exact G.
  - rewrite <- E. split.
    + intros H. left. exact H.
    + intros [H|(k' & E' & _)]; [exact H|]. exfalso. exact (D _ E').
Qed.

Lemma is_alpha_range : forall c, is_alpha_ascii c = true <-> (65 <= c <= 90 \/ 97 <= c <= 122).
Proof. intros. unfold is_alpha_ascii, is_upper_ascii, is_lower_ascii. lia. Qed.

Lemma is_space_10 : is_space 10 = true. Proof. reflexivity. Qed.
Lemma is_space_ends : forall c, is_space c = false -> ~ In c [9; 10; 12; 13; 32].
Proof. intros c H I. cbn in I. intuition (subst; discriminate). Qed.

Lemma tag_ok_iff : forall t, ~ In 91 t ->
  (existsb is_space t = false /\ tag_name_re t = true) <-> good_tag t.
Proof.
  intros t N91. unfold good_tag.
  assert (ES : existsb is_space t = false <-> forall c, In c t -> is_space c = false).
  { split.
    - intros H c Hc. destruct (is_space c) eqn:E; [|reflexivity].
      assert (existsb is_space t = true) by (apply existsb_exists; eauto). congruence.
    - intros H. apply not_true_is_false. intros C. apply existsb_exists in C as (x & Hx & E).
      rewrite (H x Hx) in E. discriminate. }
  rewrite ES. split.
  - intros [A B]. unfold tag_name_re in B.
    destruct (drop_final_nl_cases t) as [E|[E D]].
    { exfalso. assert (X : is_space 10 = false) by (apply A; rewrite E; apply in_or_app; right; now left).
      rewrite is_space_10 in X. discriminate. }
    rewrite <- E in B. destruct t as [|c r]; [discriminate|].
    apply andb_true_iff in B as [B1 B2]. split.
    + exists c, r. split; [reflexivity|]. now apply is_alpha_range.
    + intros x Hx. split; [|split; [now apply A|intros ->; exact (N91 Hx)]].
      intros X. destruct Hx as [<-|Hx].
      * apply is_alpha_range in B1. unfold ends_name in X. cbn in X. lia.
      * rewrite forallb_forall in B2. specialize (B2 x Hx). unfold tag_name_char in B2.
        apply negb_true_iff in B2. apply memF in B2. exact (B2 X).
  - intros [(c & r & E & H) B]. split; [intros x Hx; now apply B|].
    unfold tag_name_re. destruct (drop_final_nl_cases t) as [E'|[E' D]].
    { exfalso. assert (X : is_space 10 = false) by (apply B; rewrite E'; apply in_or_app; right; now left).
      rewrite is_space_10 in X. discriminate. }
    rewrite <- E'. rewrite E. apply andb_true_iff. split; [now apply is_alpha_range|].
    apply forallb_forall. intros x Hx. unfold tag_name_char. apply negb_true_iff. apply memF.
    assert (Hx' : In x t) by (rewrite E; now right). destruct (B x Hx') as [X _]. exact X.
Qed.

Lemma good_tag_not_special : forall t, good_tag t -> in_strs t special_node_names = false.
Proof.
  intros t [(c & r & -> & H) _]. apply not_true_is_false. intros X. apply in_strs_In in X.
  cbn in X. destruct X as [X|[X|[X|[X|[X|[]]]]]]; injection X as <- _; lia.
Qed.

(* ---------- the scanning loops ---------- *)
Lemma scan_to_app : forall stop bad v d r, (forall c, In c v -> ~ In c stop /\ ~ In c bad) -> In d stop ->
  scan_to stop bad (v ++ d :: r) = Some (v, d :: r).
Proof.
  induction v as [|c v IH]; intros d r H D; cbn.
  - apply memP in D. now rewrite D.
  - destruct (H c (or_introl eq_refl)) as [A B]. apply memF in A, B. rewrite A, B.
    rewrite IH; auto. intros x Hx. apply H. now right.
Qed.
Lemma scan_to_inv : forall stop bad s v rest, scan_to stop bad s = Some (v, rest) ->
  s = v ++ rest /\ (forall c, In c v -> ~ In c stop /\ ~ In c bad) /\ (forall d r, rest = d :: r -> In d stop).
Proof.
  induction s as [|c s IH]; intros v rest; cbn.
  - intros [= <- <-]. split; [reflexivity|]. split; [intros c []|intros; discriminate].
  - destruct (mem c stop) eqn:A.
    + intros [= <- <-]. split; [reflexivity|]. split; [intros x []|]. intros d r [= <- _]. now apply memP.
    + destruct (mem c bad) eqn:B; [discriminate|].
      destruct (scan_to stop bad s) as [[v' rest']|]; [|discriminate].
      intros [= <- <-]. destruct (IH v' rest' eq_refl) as (E & F & G). split; [cbn; now rewrite E|].
      split; [|exact G]. intros x [<-|Hx]; [split; now apply memF|now apply F].
Qed.

Lemma taken_no61 : forall k, taken_attr k -> ~ In 61 k.
Proof.
  intros k [[_ G]|(k' & -> & [_ G])] I.
  - now destruct (G _ I) as [_ X].
  - apply in_app_or in I as [I|[I|[]]]; [now destruct (G _ I) as [_ X]|discriminate].
Qed.
Lemma taken_nonempty : forall k, taken_attr k -> k <> [].
Proof. intros k [[A _]|(k' & -> & _)]; [exact A|]. destruct k'; discriminate. Qed.
Lemma validate_taken : forall k, taken_attr k -> validate_attr_name k = Some k.
Proof. intros k H. unfold validate_attr_name. apply attr_name_re_iff in H. now rewrite H. Qed.
Lemma validate_taken_inv : forall k x, validate_attr_name k = Some x -> taken_attr k.
Proof. intros k x H. unfold validate_attr_name in H. apply attr_name_re_iff. destruct (attr_name_re k); congruence. Qed.

(* ---------- the attribute loop ---------- *)
Lemma in_strs_false : forall k l, in_strs k l = false <-> ~ In k l.
Proof. intros. rewrite <- in_strs_In. destruct (in_strs k l); split; congruence. Qed.

Ltac lens := repeat (rewrite app_length in * || cbn [List.length] in * ); lia.

Lemma attr_loop_step : forall a part, bracket a part -> forall fuel s acc, (List.length (part ++ s) <= fuel)%nat ->
  ~ In (fst a) (map fst acc) ->
  exists fuel', (List.length s <= fuel')%nat /\ attr_loop fuel (part ++ s) acc = attr_loop fuel' s (acc ++ [a]).
Proof.
  intros a part B fuel s acc L D.
  destruct fuel as [|f]; [destruct B; cbn in L; lia|]. exists f.
  destruct B as [k T N93|k v T N93 V1 V2 Q|k q v T N93 Q V1 V2];
    cbn [fst] in D; apply in_strs_false in D; (split; [lens|]).
  - replace (([91] ++ k ++ [93]) ++ s) with (91 :: k ++ 93 :: s) by (repeat (rewrite <- app_assoc; cbn [app]); reflexivity).
    cbn [attr_loop]. replace (negb (91 =? 91)) with false by reflexivity. cbv iota.
    rewrite (scan_to_app [61; 93] [] k 93 s); [| |now right; left].
    2:{ intros c Hc. split; [|intros []]. intros [<-|[<-|[]]]; [exact (taken_no61 k T Hc)|exact (N93 Hc)]. }
    destruct k as [|c0 k0]; [now destruct (taken_nonempty _ T)|].
    rewrite (validate_taken _ T), D. reflexivity.
  - replace (([91] ++ k ++ [61] ++ v ++ [93]) ++ s) with (91 :: k ++ 61 :: v ++ 93 :: s)
      by (repeat (rewrite <- app_assoc; cbn [app]); reflexivity).
    cbn [attr_loop]. replace (negb (91 =? 91)) with false by reflexivity. cbv iota.
    rewrite (scan_to_app [61; 93] [] k 61 (v ++ 93 :: s)); [| |now left].
    2:{ intros c Hc. split; [|intros []]. intros [<-|[<-|[]]]; [exact (taken_no61 k T Hc)|exact (N93 Hc)]. }
    destruct k as [|c0 k0]; [now destruct (taken_nonempty _ T)|].
    rewrite (validate_taken _ T), D. replace (61 =? 93) with false by reflexivity. cbv iota.
    assert (SV : scan_to [93] [91] (v ++ 93 :: s) = Some (v, 93 :: s)).
    { apply scan_to_app; [|now left]. intros c Hc.
      split; intros [<-|[]]; [exact (V2 Hc)|exact (V1 Hc)]. }
    destruct v as [|q v].
    + cbn [app] in SV |- *. replace (mem 93 [34; 39]) with false by reflexivity. cbv iota. rewrite SV. reflexivity.
    + cbn [app] in SV |- *. destruct (Q q v eq_refl) as [Q1 Q2].
      replace (mem q [34; 39]) with false; [|symmetry; apply memF; cbn; intuition congruence].
      rewrite SV. reflexivity.
  - replace (([91] ++ k ++ [61; q] ++ v ++ [q; 93]) ++ s) with (91 :: k ++ 61 :: q :: v ++ q :: 93 :: s)
      by (repeat (rewrite <- app_assoc; cbn [app]); reflexivity).
    cbn [attr_loop]. replace (negb (91 =? 91)) with false by reflexivity. cbv iota.
    rewrite (scan_to_app [61; 93] [] k 61 (q :: v ++ q :: 93 :: s)); [| |now left].
    2:{ intros c Hc. split; [|intros []]. intros [<-|[<-|[]]]; [exact (taken_no61 k T Hc)|exact (N93 Hc)]. }
    destruct k as [|c0 k0]; [now destruct (taken_nonempty _ T)|].
    rewrite (validate_taken _ T), D. replace (61 =? 93) with false by reflexivity. cbv iota.
    replace (mem q [34; 39]) with true; [|symmetry; apply memP; cbn; intuition congruence].
    rewrite (scan_to_app [q] [92] v q (93 :: s)); [reflexivity| |now left].
    intros c Hc. split; intros [<-|[]]; auto.
Qed.

Lemma attr_loop_complete : forall attrs parts, Forall2 bracket attrs parts -> forall fuel acc,
  (List.length (List.concat parts) <= fuel)%nat -> NoDup (map fst (acc ++ attrs)) ->
  attr_loop fuel (List.concat parts) acc = ROk (acc ++ attrs).
Proof.
  induction 1 as [|a p attrs parts B F IH]; intros fuel acc L ND.
  - cbn. rewrite app_nil_r. destruct fuel; reflexivity.
  - cbn [List.concat] in *.
    destruct (attr_loop_step a p B fuel (List.concat parts) acc L) as (f' & L' & ->).
    { rewrite map_app in ND. cbn in ND. apply NoDup_remove_2 in ND. intros X. apply ND. apply in_or_app. now left. }
    rewrite IH; [|exact L'|]; rewrite <- app_assoc; [reflexivity|exact ND].
Qed.

Lemma nodup_snoc : forall (l : list str) x, NoDup l -> ~ In x l -> NoDup (l ++ [x]).
Proof.
  induction l as [|y l IH]; intros x ND D; cbn.
  - constructor; [intros []|constructor].
  - inversion ND; subst. constructor.
    + intros X. apply in_app_or in X as [X|[X|[]]]; [auto|]. subst. apply D. now left.
    + apply IH; auto. intros X. apply D. now right.
Qed.

Lemma attr_loop_sound : forall fuel s acc r, NoDup (map fst acc) -> attr_loop fuel s acc = ROk r ->
  exists attrs parts, Forall2 bracket attrs parts /\ s = List.concat parts /\ r = acc ++ attrs /\ NoDup (map fst r).
Proof.
  induction fuel as [|f IH]; intros s acc r ND H.
  { destruct s; [|discriminate]. injection H as <-. exists [], []. rewrite app_nil_r. repeat split; auto. }
  destruct s as [|c s].
  { injection H as <-. exists [], []. rewrite app_nil_r. repeat split; auto. }
  cbn [attr_loop] in H. destruct (c =? 91) eqn:E; [|discriminate]. apply N.eqb_eq in E. subst c. cbn [negb] in H.
  destruct (scan_to [61; 93] [] s) as [[name rest]|] eqn:SC; [|discriminate].
  apply scan_to_inv in SC as (Es & Hn & Hr).
  destruct name as [|n0 name0]; [destruct rest; discriminate|].
  destruct rest as [|d s1]; [discriminate|].
  set (name := n0 :: name0) in *.
  assert (Hd : d = 61 \/ d = 93). { destruct (Hr d s1 eq_refl) as [X|[X|[]]]; auto. }
  assert (N93 : ~ In 93 name). { intros X. apply Hn in X as [X _]. apply X. right. now left. }
  destruct (validate_attr_name name) as [nm|] eqn:EV; [|discriminate].
  apply validate_taken_inv in EV as T. clear EV nm.
  destruct (in_strs name (map fst acc)) eqn:ED; [discriminate|]. apply in_strs_false in ED.
  assert (STEP : forall v s', attr_loop f s' (acc ++ [(name, v)]) = ROk r ->
     forall part, bracket (name, v) part -> 91 :: s = part ++ s' ->
     exists attrs parts, Forall2 bracket attrs parts /\ 91 :: s = List.concat parts /\ r = acc ++ attrs /\ NoDup (map fst r)).
  { intros v s' H' part B E.
    apply IH in H' as (attrs & parts & F & Ec & Er & Nr).
    2:{ rewrite map_app. cbn. now apply nodup_snoc. }
    exists ((name, v) :: attrs), (part :: parts). split; [now constructor|]. split; [cbn; rewrite E; now f_equal|].
    split; [|exact Nr]. rewrite Er, <- app_assoc. reflexivity. }
  destruct (d =? 93) eqn:E93.
  - apply N.eqb_eq in E93. subst d.
    apply STEP with (part := [91] ++ name ++ [93]) in H; [exact H|now constructor|].
    rewrite Es. repeat (rewrite <- app_assoc; cbn [app]). reflexivity.
  - assert (d = 61) by (apply N.eqb_neq in E93; destruct Hd; congruence). subst d.
    destruct s1 as [|q s1]; [discriminate|].
    destruct (mem q [34; 39]) eqn:EQ.
    + apply memP in EQ.
      destruct (scan_to [q] [92] s1) as [[v rest]|] eqn:SC; [|discriminate].
      apply scan_to_inv in SC as (Es1 & Hv & Hrest).
      destruct rest as [|q' s2]; [discriminate|].
      destruct s2 as [|e s3]; [discriminate|]. destruct (e =? 93) eqn:E3; [|discriminate]. apply N.eqb_eq in E3. subst e.
      destruct (Hrest _ _ eq_refl) as [X|[]]. subst q'.
      apply STEP with (part := [91] ++ name ++ [61; q] ++ v ++ [q; 93]) in H; [exact H| |].
      * constructor; auto.
        -- destruct EQ as [<-|[<-|[]]]; auto.
        -- intros X. apply Hv in X as [X _]. apply X. now left.
        -- intros X. apply Hv in X as [_ X]. apply X. now left.
      * rewrite Es, Es1. repeat (rewrite <- app_assoc; cbn [app]). reflexivity.
    + apply memF in EQ.
      destruct (scan_to [93] [91] (q :: s1)) as [[v rest]|] eqn:SC; [|discriminate].
      apply scan_to_inv in SC as (Es1 & Hv & Hrest).
      destruct rest as [|d s2]; [discriminate|].
      destruct (Hrest _ _ eq_refl) as [X|[]]. subst d.
      apply STEP with (part := [91] ++ name ++ [61] ++ v ++ [93]) in H; [exact H| |].
      * constructor; auto.
        -- intros X. apply Hv in X as [_ X]. apply X. now left.
        -- intros X. apply Hv in X as [X _]. apply X. now left.
        -- intros q0 r0 ->. injection Es1 as -> _. cbn in EQ. intuition.
      * rewrite Es, Es1. repeat (rewrite <- app_assoc; cbn [app]). reflexivity.
Qed.

Lemma scan_to_length : forall stop bad s v rest, scan_to stop bad s = Some (v, rest) ->
  (List.length rest <= List.length s)%nat.
Proof. intros. apply scan_to_inv in H as (-> & _). lens. Qed.

Lemma attr_loop_total : forall fuel s acc, (List.length s <= fuel)%nat -> attr_loop fuel s acc <> RFuel.
Proof.
  induction fuel as [|f IH]; intros s acc L; destruct s as [|c s]; try discriminate; [cbn in L; lia|].
  cbn [attr_loop]. destruct (negb (c =? 91)); [discriminate|].
  destruct (scan_to [61; 93] [] s) as [[name rest]|] eqn:SC; [|discriminate]. apply scan_to_length in SC.
  destruct name; [destruct rest; discriminate|]. destruct rest as [|d s1]; [discriminate|].
  destruct (validate_attr_name _); [|discriminate]. destruct (in_strs _ _); [discriminate|].
  destruct (d =? 93); [apply IH; lens|]. destruct s1 as [|q s1]; [discriminate|].
  destruct (mem q [34; 39]).
  - destruct (scan_to [q] [92] s1) as [[v rest]|] eqn:SC2; [|discriminate]. apply scan_to_length in SC2.
    destruct rest as [|q' [|e s3]]; try discriminate. destruct (e =? 93); [apply IH; lens|discriminate].
  - destruct (scan_to [93] [91] (q :: s1)) as [[v rest]|] eqn:SC2; [|discriminate]. apply scan_to_length in SC2.
    destruct rest as [|q' s3]; try discriminate. apply IH; lens.
Qed.

(* ---------- the name ---------- *)
Lemma find_char_none : forall c s, find_char c s = None -> ~ In c s.
Proof.
  induction s as [|x s IH]; cbn; [auto|]. destruct (x =? c) eqn:E.
  - discriminate.
  - destruct (find_char c s); [discriminate|]. intros _ [->|X]; [rewrite N.eqb_refl in E; discriminate|now apply IH].
Qed.
Lemma find_char_some : forall c s i, find_char c s = Some i ->
  ~ In c (firstn i s) /\ exists r, skipn i s = c :: r.
Proof.
  induction s as [|x s IH]; cbn; [discriminate|]. intros i. destruct (x =? c) eqn:E.
  - intros [= <-]. apply N.eqb_eq in E. subst. split; [intros []|eexists; reflexivity].
  - destruct (find_char c s) as [j|]; [|discriminate]. intros [= <-].
    destruct (IH j eq_refl) as (A & r & B). cbn. split; [|eexists; exact B].
    intros [->|X]; [rewrite N.eqb_refl in E; discriminate|exact (A X)].
Qed.
Lemma find_char_app : forall c t r, ~ In c t -> find_char c (t ++ c :: r) = Some (List.length t).
Proof.
  induction t as [|x t IH]; intros r H; cbn.
  - now rewrite N.eqb_refl.
  - destruct (x =? c) eqn:E; [apply N.eqb_eq in E; subst; exfalso; apply H; now left|].
    rewrite IH; [reflexivity|]. intros X. apply H. now right.
Qed.
Lemma find_char_absent : forall c t, ~ In c t -> find_char c t = None.
Proof. intros c t H. destruct (find_char c t) eqn:E; [|reflexivity]. exfalso. apply H.
  apply find_char_some in E as (_ & r & E). rewrite <- (firstn_skipn n t), E. apply in_or_app. right. now left. Qed.

(* dividing at the first bracket *)
Definition divide (value : str) : str * str :=
  match find_char 91 value with None => (value, []) | Some i => (firstn i value, skipn i value) end.
Lemma divide_spec : forall v t r, divide v = (t, r) ->
  v = t ++ r /\ ~ In 91 t /\ (r = [] \/ exists r', r = 91 :: r').
Proof.
  intros v t r. unfold divide. destruct (find_char 91 v) as [i|] eqn:E; intros [= <- <-].
  - split; [now rewrite firstn_skipn|]. apply find_char_some in E as (A & r & B). split; [exact A|]. right. eauto.
  - rewrite app_nil_r. split; [reflexivity|]. split; [now apply find_char_none|now left].
Qed.
Lemma divide_app : forall t r, ~ In 91 t -> (r = [] \/ exists r', r = 91 :: r') -> divide (t ++ r) = (t, r).
Proof.
  intros t r H [->|(r' & ->)]; unfold divide.
  - rewrite app_nil_r, find_char_absent; auto.
  - rewrite find_char_app by auto. rewrite firstn_app, firstn_all, Nat.sub_diag, skipn_app, skipn_all, Nat.sub_diag.
    cbn. now rewrite app_nil_r.
Qed.

Definition parse_alt (value : str) : res (str * list (str * option str)) :=
  let '(t, r) := divide value in
  if match t with [] => true | _ => false end then RErr ValueError
  else if existsb is_space t then RErr ValueError
  else if negb (in_strs t special_node_names) && negb (tag_name_re t) then RErr ValueError
  else match attr_loop (List.length r) r [] with
       | ROk attrs => ROk (t, attrs) | RErr e => RErr e | RFuel => RFuel end.
Lemma parse_alt_eq : forall v, parse_element_name v = parse_alt v.
Proof.
  intros v. unfold parse_element_name, parse_alt, divide. destruct v as [|c v]; [reflexivity|].
  destruct (find_char 91 (c :: v)) as [i|]; [|reflexivity].
  destruct (firstn i (c :: v)); reflexivity.
Qed.

Lemma brackets_head : forall attrs parts, Forall2 bracket attrs parts ->
  List.concat parts = [] \/ exists r, List.concat parts = 91 :: r.
Proof. intros attrs parts [|a p ? ? B F]; [now left|]. right. destruct B; cbn; eexists; reflexivity. Qed.

Lemma parse_complete : forall tag attrs s, shorthand tag attrs s -> parse_element_name s = ROk (tag, attrs).
Proof.
  intros tag attrs s (G & ND & parts & F & ->). rewrite parse_alt_eq. unfold parse_alt.
  assert (N91 : ~ In 91 tag). { intros X. destruct G as [_ G]. now destruct (G _ X) as (_ & _ & Y). }
  rewrite divide_app; [|exact N91|exact (brackets_head _ _ F)].
  destruct (proj2 (tag_ok_iff tag N91) G) as [A B].
  destruct tag as [|c0 t0]; [discriminate B|].
  rewrite A, B. cbn [negb]. rewrite andb_false_r. cbv iota.
  rewrite (attr_loop_complete attrs parts F); auto.
Qed.

Lemma parse_sound : forall s tag attrs, parse_element_name s = ROk (tag, attrs) ->
  in_strs tag special_node_names = false -> shorthand tag attrs s.
Proof.
  intros s tag attrs. rewrite parse_alt_eq. unfold parse_alt. destruct (divide s) as [t r] eqn:D.
  apply divide_spec in D as (E & N91 & _).
  destruct t as [|c0 t0] eqn:ET; [discriminate|]. rewrite <- ET in *.
  destruct (existsb is_space t) eqn:ES; [discriminate|].
  destruct (negb (in_strs t special_node_names) && negb (tag_name_re t)) eqn:EB; [discriminate|].
  destruct (attr_loop (List.length r) r []) eqn:EL; try discriminate.
  intros [= <- <-] NS. rewrite NS in EB. cbn in EB. apply negb_false_iff in EB.
  apply attr_loop_sound in EL as (attrs & parts & F & Er & Ea & ND); [|constructor].
  cbn in Ea. subst a. split; [now apply tag_ok_iff|]. split; [exact ND|]. exists parts. split; [exact F|].
  now rewrite E, Er.
Qed.

Lemma parse_total : forall s, parse_element_name s <> RFuel.
Proof.
  intros s. rewrite parse_alt_eq. unfold parse_alt. destruct (divide s) as [t r].
  destruct t; [discriminate|]. destruct (existsb _ _); [discriminate|]. destruct (_ && _); [discriminate|].
  pose proof (attr_loop_total (List.length r) r [] (le_n _)). destruct (attr_loop _ _ _); congruence.
Qed.

(* ---------- flattening ---------- *)
Definition to_items (l : list node) : list child := map CNode l.

(* recursive reference: the items appended *)
Fixpoint items (c : child) : option (list child) :=
  match c with
  | CNone | CBool false => Some []
  | CStr s => Some [CNode (NText s)]
  | CNode n => Some [CNode n]
  | CFragment l => Some [CFragment l]
  | CIter l => fold_right (fun c a => match items c, a with Some x, Some y => Some (x ++ y) | _, _ => None end) (Some []) l
  | _ => None
  end.
Definition items_list (l : list child) : option (list child) :=
  fold_right (fun c a => match items c, a with Some x, Some y => Some (x ++ y) | _, _ => None end) (Some []) l.
Lemma items_list_cons : forall c l, items_list (c :: l) =
  match items c, items_list l with Some x, Some y => Some (x ++ y) | _, _ => None end.
Proof. reflexivity. Qed.
Lemma items_list_app : forall a b, items_list (a ++ b) =
  match items_list a, items_list b with Some x, Some y => Some (x ++ y) | _, _ => None end.
Proof.
  induction a as [|c a IH]; intros b; cbn [app].
  - change (items_list []) with (Some (@nil child)). destruct (items_list b); reflexivity.
  - rewrite !items_list_cons, IH. destruct (items c), (items_list a), (items_list b); try reflexivity. now rewrite app_assoc.
Qed.

Lemma children_size_cons : forall c l, children_size (c :: l) = (child_size c + children_size l)%nat.
Proof. reflexivity. Qed.
Lemma children_size_app : forall a b, children_size (a ++ b) = (children_size a + children_size b)%nat.
Proof. induction a as [|c a IH]; intros b; [reflexivity|]. cbn [app]. rewrite !children_size_cons, IH. lia. Qed.
Lemma child_size_pos : forall c, (1 <= child_size c)%nat. Proof. destruct c; cbn; lia. Qed.
Lemma flatten_loop_ok : forall fuel stack acc, (children_size stack <= fuel)%nat ->
  flatten_loop fuel stack acc = match items_list stack with Some x => ROk (acc ++ x) | None => RErr TypeError end.
Proof.
  induction fuel as [|f IH]; intros stack acc L.
  { destruct stack as [|c s]; cbn; [now rewrite app_nil_r|]. rewrite children_size_cons in L. pose proof (child_size_pos c). lia. }
  destruct stack as [|c s]; [cbn; now rewrite app_nil_r|]. rewrite children_size_cons in L. pose proof (child_size_pos c).
  assert (APP : forall c0, (children_size s <= f)%nat -> flatten_loop f s (acc ++ [c0]) =
    match match items_list s with Some y => Some ([c0] ++ y) | None => None end with
    | Some x => ROk (acc ++ x) | None => RErr TypeError end).
  { intros c0 L'. rewrite IH by auto. destruct (items_list s); [|reflexivity]. now rewrite <- app_assoc. }
  cbn [flatten_loop].
  destruct c; try (cbn; reflexivity).
  - rewrite IH by lia. rewrite items_list_cons; cbn [items]. destruct (items_list s); reflexivity.
  - destruct b; [reflexivity|]. rewrite IH by lia. rewrite items_list_cons; cbn [items]. destruct (items_list s); reflexivity.
  - rewrite APP by lia. reflexivity.
  - rewrite APP by lia. reflexivity.
  - rewrite APP by lia. reflexivity.
  - rewrite IH.
    + rewrite items_list_app. reflexivity.
    + rewrite children_size_app. change (child_size (CIter l)) with (S (children_size l)) in L. lia.
Qed.

Definition nodes_of (c : child) : list node := match c with CNode n => [n] | CFragment l => l | _ => [] end.
Lemma fold_append : forall l acc, fold_left append_child l acc = acc ++ flat_map nodes_of l.
Proof.
  induction l as [|c l IH]; intros acc; cbn; [now rewrite app_nil_r|]. rewrite IH.
  destruct c; cbn [append_child nodes_of]; rewrite <- ?app_assoc; reflexivity.
Qed.

Fixpoint items_flat (c : child) : forall x, items c = Some x -> flat c (flat_map nodes_of x).
Proof.
  destruct c as [|b|s|n|l| | | |l|]; cbn; intros x H; try discriminate.
  - injection H as <-. constructor.
  - destruct b; [discriminate|]. injection H as <-. constructor.
  - injection H as <-. constructor.
  - injection H as <-. constructor.
  - injection H as <-. cbn. rewrite app_nil_r. constructor.
  - constructor. revert x H. induction l as [|c l IH]; cbn; intros x H.
    + injection H as <-. constructor.
    + destruct (items c) as [a|] eqn:E; [|discriminate].
      destruct (fold_right _ _ l) as [b|]; [|discriminate]. injection H as <-.
      rewrite flat_map_app. constructor; [now apply items_flat|now apply IH].
Qed.
Lemma items_list_flats : forall l x, items_list l = Some x -> flats l (flat_map nodes_of x).
Proof. intros l x H. assert (F := items_flat (CIter l) x H). now inversion F. Qed.

Scheme flat_mut := Induction for flat Sort Prop with flats_mut := Induction for flats Sort Prop.
Lemma flats_items : forall l ls, flats l ls -> exists x, items_list l = Some x /\ ls = flat_map nodes_of x.
Proof.
  apply (flats_mut (fun c ls _ => exists x, items c = Some x /\ ls = flat_map nodes_of x)
                   (fun l ls _ => exists x, items_list l = Some x /\ ls = flat_map nodes_of x));
    intros; try (eexists; split; [reflexivity|]; cbn; rewrite ?app_nil_r; reflexivity).
  - exact H.
  - destruct H as (x & E & ->), H0 as (y & E' & ->). exists (x ++ y). rewrite items_list_cons, E, E', flat_map_app. auto.
Qed.

Lemma flatten_iff : forall l kids,
  (exists x, flatten_children l = ROk x /\ kids = fold_left append_child x []) <-> flats l kids.
Proof.
  intros l kids. unfold flatten_children. rewrite flatten_loop_ok by auto. split.
  - intros (x & E & ->). rewrite fold_append. destruct (items_list l) as [y|] eqn:EI; [|discriminate].
    injection E as <-. now apply items_list_flats.
  - intros F. apply flats_items in F as (x & E & ->). exists x. rewrite E, fold_append. auto.
Qed.
Lemma flatten_total : forall l, flatten_children l <> RFuel.
Proof. intros l. unfold flatten_children. rewrite flatten_loop_ok by auto. destruct (items_list l); discriminate. Qed.

(* ---------- namespaces, attributes ---------- *)
Lemma namespace_iff : forall n ns, normalize_namespace n = ROk ns <-> names_ns n ns.
Proof.
  intros [|s|] ns; unfold normalize_namespace, names_ns; cbv zeta.
  - split; congruence.
  - generalize (lower s). intros t. destruct (str_eqb t (u "mathml")) eqn:E.
    + apply str_eqb_eq in E. subst t. replace (in_strs (u "math") allowed_namespaces) with true by reflexivity.
      split; [intros [= <-]; right; right; auto|]. intros [[X _]|[[X _]|[_ ->]]]; [vm_compute in X; discriminate X|vm_compute in X; discriminate X|reflexivity].
    + assert (NE : t <> u "mathml") by (intros ->; rewrite str_eqb_refl in E; discriminate).
      split.
      * destruct (in_strs t allowed_namespaces) eqn:I; [|discriminate]. intros [= <-].
        apply in_strs_In in I. cbn in I. destruct I as [<-|[<-|[<-|[]]]]; auto 10.
      * intros [[-> ->]|[[-> ->]|[[->| ->] ->]]]; try reflexivity. now destruct NE.
  - split; [discriminate|intros []].
Qed.

Lemma normalize_iff : forall l r, normalize_attrs l = ROk r <-> gives l r.
Proof.
  induction l as [|[[k|] v] l IH]; intros r; cbn.
  - split; [intros [= <-]; constructor|]. intros F. now inversion F.
  - split.
    + destruct k as [|c0 k0] eqn:EK; [discriminate|]. rewrite <- EK. clear EK.
      destruct (validate_attr_name k) eqn:EV; [|discriminate].
      destruct (normalize_attrs l) as [| |r'] eqn:E; try discriminate. intros [= <-].
      constructor; [|now apply IH]. cbn. split; [reflexivity|]. split; [reflexivity|]. exact (validate_taken_inv _ _ EV).
    + intros F. inversion F as [|? [k' v'] ? r' (A & B & C) F']; subst. cbn in A, B, C. injection A as ->. subst v'.
      destruct k' as [|c0 k0] eqn:EK; [now destruct (taken_nonempty _ C)|]. rewrite <- EK in *. clear EK.
      rewrite (validate_taken _ C). apply IH in F'. now rewrite F'.
  - split; [discriminate|]. intros F. inversion F as [|? ? ? ? (A & _) _]; subst. discriminate A.
Qed.
Lemma normalize_total : forall l, normalize_attrs l <> RFuel.
Proof.
  induction l as [|[[[|c k]|] v] l IH]; cbn; try discriminate.
  destruct (validate_attr_name _); [|discriminate]. destruct (normalize_attrs l); congruence.
Qed.

(* ---------- element ---------- *)
Lemma dup_false : forall (a b : list (str * option str)),
  existsb (fun kv => in_strs (fst kv) (map fst b)) a = false <-> (forall k, In k (map fst a) -> ~ In k (map fst b)).
Proof.
  intros. split.
  - intros H k Hk Hb. apply in_map_iff in Hk as (kv & <- & Hkv).
    assert (existsb (fun kv => in_strs (fst kv) (map fst b)) a = true).
    { apply existsb_exists. exists kv. split; [exact Hkv|]. now apply in_strs_In. }
    congruence.
  - intros H. apply not_true_is_false. intros C. apply existsb_exists in C as (kv & Hkv & E).
    apply in_strs_In in E. apply (H (fst kv)); [now apply in_map|exact E].
Qed.

Definition node_made (tag ns : str) (attrs : list (str * option str)) (kids : list node) : node :=
  if str_eqb tag (u "template") && str_eqb ns (u "html") then NElem tag (Some ns) attrs [] (Some kids)
  else NElem tag (Some ns) attrs kids None.

Lemma element_iff : forall name arg children nsa n,
  element name arg children nsa = ROk n <->
  exists tag ns short explicit kids,
    shorthand tag short name /\ names_ns nsa ns /\ gives (mapping_of arg) explicit /\
    (forall k, In k (map fst short) -> ~ In k (map fst explicit)) /\
    flats (children_of arg children) kids /\ n = node_made tag ns (short ++ explicit) kids.
Proof.
  intros name arg children nsa n. unfold element.
  assert (EM : (match arg with ANone => ([], children) | AMapping l => (l, children) | AChild c => ([], c :: children) end)
               = (mapping_of arg, children_of arg children)) by (destruct arg; reflexivity).
  rewrite EM. clear EM. split.
  - destruct (normalize_namespace nsa) as [| |ns] eqn:EN; try discriminate.
    destruct (parse_element_name name) as [| |[tag short]] eqn:EP; try discriminate.
    destruct (in_strs tag special_node_names) eqn:ES; [discriminate|].
    destruct (normalize_attrs (mapping_of arg)) as [| |explicit] eqn:EA; try discriminate.
    destruct (existsb _ short) eqn:ED; [discriminate|].
    destruct (flatten_children _) as [| |x] eqn:EF; try discriminate. intros H.
    exists tag, ns, short, explicit, (fold_left append_child x []).
    split; [now apply parse_sound|]. split; [now apply namespace_iff|]. split; [now apply normalize_iff|].
    split; [now apply dup_false|]. split; [apply flatten_iff; eauto|].
    unfold node_made. destruct (str_eqb tag (u "template") && str_eqb ns (u "html")); congruence.
  - intros (tag & ns & short & explicit & kids & SH & NS & GI & DU & FL & ->).
    apply namespace_iff in NS. rewrite NS. rewrite (parse_complete _ _ _ SH).
    rewrite (good_tag_not_special tag (proj1 SH)).
    apply normalize_iff in GI. rewrite GI. apply dup_false in DU. rewrite DU.
    apply flatten_iff in FL as (x & -> & ->). unfold node_made. destruct (_ && _); reflexivity.
Qed.

Lemma element_total : forall name arg children nsa, element name arg children nsa <> RFuel.
Proof.
  intros. unfold element.
  destruct (normalize_namespace nsa) eqn:EN; try discriminate.
  { destruct nsa; unfold normalize_namespace in EN; try discriminate. cbv zeta in EN.
    destruct (in_strs _ allowed_namespaces); discriminate. }
  destruct (match arg with ANone => _ | AMapping _ => _ | AChild _ => _ end) as [m ch].
  pose proof (parse_total name). destruct (parse_element_name name) as [| |[tag short]]; try congruence.
  destruct (in_strs _ _); [discriminate|].
  pose proof (normalize_total m). destruct (normalize_attrs m); try congruence.
  destruct (existsb _ _); [discriminate|].
  pose proof (flatten_total ch). destruct (flatten_children ch); try congruence.
  destruct (_ && _); discriminate.
Qed.

(* ---------- every built tree serializes ---------- *)
Inductive clean : node -> Prop :=
| cl_text s : clean (NText s)
| cl_comment s : clean (NComment s)
| cl_doctype d : clean (NDoctype d)
| cl_elem name ns attrs cs tc : validate_tag_name name = Some name ->
    (forall kv, In kv attrs -> validate_attr_name (fst kv) = Some (fst kv)) ->
    cleans cs -> (forall l, tc = Some l -> cleans l) -> clean (NElem name ns attrs cs tc)
with cleans : list node -> Prop :=
| cls_nil : cleans []
| cls_cons n l : clean n -> cleans l -> cleans (n :: l).
Scheme clean_mut := Induction for clean Sort Prop with cleans_mut := Induction for cleans Sort Prop.

Lemma cleans_app : forall a b, cleans a -> cleans b -> cleans (a ++ b).
Proof. induction 1; cbn; auto. intros. constructor; auto. Qed.
Lemma cleans_In : forall l, cleans l <-> (forall n, In n l -> clean n).
Proof.
  induction l as [|x l IH]; split.
  - intros _ n [].
  - constructor.
  - intros H n [<-|Hn]; inversion H; subst; auto. now apply IH.
  - intros H. constructor; [apply H; now left|]. apply IH. intros n Hn. apply H. now right.
Qed.

Lemma start_tag_ok : forall o ns name attrs, validate_tag_name name = Some name ->
  (forall kv, In kv attrs -> validate_attr_name (fst kv) = Some (fst kv)) ->
  exists s, serialize_start_tag o ns name attrs = Some s.
Proof.
  intros o ns name attrs T A. unfold serialize_start_tag. rewrite T.
  assert (X : exists a, serialize_attrs o ns name attrs = Some a).
  { induction attrs as [|[k v] attrs IH]; cbn [serialize_attrs]; [eauto|].
    assert (Y : exists a, serialize_attr o ns name k v = Some a).
    { unfold serialize_attr. pose proof (A (k, v) (or_introl eq_refl)) as V. cbn [fst] in V. rewrite V. cbv zeta.
      destruct (minimize_boolean_attributes o && _); [eauto|]. destruct (_ && str_eqb (lower _) (lower k)); [eauto|].
      destruct (match match v with None => [] | Some w => w end with [] => true | _ => false end); [eauto|].
      destruct (negb _ && _); eauto. }
    assert (Z : exists b, serialize_attrs o ns name attrs = Some b) by (apply IH; intros kv H; apply A; now right).
    destruct Y as (a & Ea), Z as (b & Eb). rewrite Ea, Eb. eexists. reflexivity. }
  destruct X as (a & ->). eauto.
Qed.

Lemma compact_no_raise : forall fuel stack parts,
  (forall n p, In (INode n p) stack -> clean n) -> compact_loop fuel stack parts <> Raise.
Proof.
  induction fuel as [|f IH]; intros stack parts H.
  { destruct stack; discriminate. }
  destruct stack as [|it st]; [discriminate|]. cbn [compact_loop].
  assert (HS : forall n p, In (INode n p) st -> clean n) by (intros n p I; apply (H n p); now right).
  destruct it as [n p|nm]; [|now apply IH].
  pose proof (H n p (or_introl eq_refl)) as C.
  destruct C as [s|s|d|name ns attrs cs tc T A CC CT]; try (now apply IH).
  destruct (start_tag_ok default_opts ns name attrs T A) as (s & ->).
  destruct (in_strs name void_elements); [now apply IH|].
  destruct (serialized_children name ns cs tc) as [l pp] eqn:E.
  assert (CL : cleans l).
  { unfold serialized_children in E. destruct (_ && _); [|injection E as <- _; exact CC].
    destruct tc as [t|]; injection E as <- _; [now apply CT|exact CC]. }
  apply IH. intros n0 p0 I. apply in_app_or in I as [I|[I|I]]; [|discriminate|now apply (HS n0 p0)].
  apply in_map_iff in I as (x & [= <- _] & I). rewrite cleans_In in CL. now apply CL.
Qed.

Lemma taken_validates : forall a : str * option str, taken_attr (fst a) -> validate_attr_name (fst a) = Some (fst a).
Proof. intros. now apply validate_taken. Qed.

Lemma shorthand_names : forall tag attrs s, shorthand tag attrs s ->
  validate_tag_name tag = Some tag /\ forall kv, In kv attrs -> validate_attr_name (fst kv) = Some (fst kv).
Proof.
  intros tag attrs s (G & _ & parts & F & _). split.
  - unfold validate_tag_name. assert (N91 : ~ In 91 tag). { intros X. destruct G as [_ G]. now destruct (G _ X) as (_ & _ & Y). }
    destruct (proj2 (tag_ok_iff tag N91) G) as [_ ->]. reflexivity.
  - intros kv I. apply taken_validates. clear G. induction F as [|a p attrs parts B F IH]; [destruct I|].
    destruct I as [->|I]; [|auto]. inversion B; subst; cbn; assumption.
Qed.

Scheme built_mut := Induction for built Sort Prop
  with built_child_mut := Induction for built_child Sort Prop
  with built_children_mut := Induction for built_children Sort Prop
  with built_nodes_mut := Induction for built_nodes Sort Prop.

Lemma built_clean : forall n, built n -> clean n.
Proof.
  apply (built_mut (fun n _ => clean n) (fun c _ => forall l, flat c l -> cleans l)
           (fun cs _ => forall l, flats cs l -> cleans l) (fun l _ => cleans l)).
  - intros s n [= <-]. constructor.
  - intros s n [= <-]. constructor.
  - intros a b c n H. unfold doctype_node in H. destruct a; [injection H as <-; constructor|].
    destruct (validate_tag_name _); [|discriminate]. injection H as <-; constructor.
  - intros name arg children nsa n _ IH E. apply element_iff in E as (tag & ns & short & explicit & kids & SH & _ & GI & _ & FL & ->).
    destruct (shorthand_names _ _ _ SH) as [T A].
    assert (AA : forall kv, In kv (short ++ explicit) -> validate_attr_name (fst kv) = Some (fst kv)).
    { intros kv I. apply in_app_or in I as [I|I]; [now apply A|].
      apply taken_validates. clear -GI I. unfold gives in GI. induction GI as [|x y l r (_ & _ & H) F IH]; [destruct I|].
      destruct I as [->|I]; auto. }
    apply IH in FL. unfold node_made. destruct (_ && _); constructor; auto; try constructor; try congruence.
  - intros n _ H l F. inversion F; subst. constructor; [exact H|constructor].
  - intros l _ H l' F. inversion F; subst. exact H.
  - intros l _ H l' F. inversion F; subst. now apply H.
  - intros l F. inversion F; subst. constructor.
  - intros b l F. inversion F; subst. constructor.
  - intros s l F. inversion F; subst. constructor; constructor.
  - intros l F. inversion F; subst. constructor.
  - intros c l _ H _ H' l' F. inversion F; subst. apply cleans_app; auto.
  - constructor.
  - intros n l _ H _ H'. now constructor.
Qed.

Lemma doctype_name_re : forall t, (match t with [] => false | c :: r => is_alpha_ascii c && forallb tag_name_char r end) = true <-> doctype_name t.
Proof.
  intros [|c r]; unfold doctype_name.
  - split; [discriminate|]. intros [(c & r & E & _) _]. discriminate.
  - rewrite andb_true_iff, is_alpha_range, forallb_forall. split.
    + intros [A B]. split; [exists c, r; auto|]. intros x [<-|Hx] X.
      * unfold ends_name in X. cbn in X. lia.
      * specialize (B x Hx). unfold tag_name_char in B. apply negb_true_iff in B. apply memF in B. exact (B X).
    + intros [(c' & r' & [= <- <-] & A) B]. split; [exact A|]. intros x Hx. unfold tag_name_char. apply negb_true_iff, memF.
      apply B. now right.
Qed.
Lemma doctype_iff : forall name pub sys n, doctype_node name pub sys = ROk n <->
  taken_doctype_name name /\ n = NDoctype (DObj (Doctype_ (Some name) pub sys)).
Proof.
  intros name pub sys n. unfold doctype_node, taken_doctype_name. destruct name as [|c0 r0] eqn:EN.
  - split; [intros [= <-]; auto|]. intros [_ ->]. reflexivity.
  - rewrite <- EN. assert (NE : name <> []) by congruence. clear EN.
    assert (R : tag_name_re name = true <-> doctype_name (drop_final_nl name)) by apply doctype_name_re.
    unfold validate_tag_name. split.
    + destruct (tag_name_re name) eqn:T; [|discriminate]. intros [= <-]. split; [|reflexivity]. right.
      pose proof (proj1 R eq_refl) as T'. destruct (drop_final_nl_cases name) as [E|[E _]].
      * right. exists (drop_final_nl name). auto.
      * left. now rewrite E.
    + intros [T ->]. assert (T' : tag_name_re name = true); [|now rewrite T'].
      apply R. destruct T as [T|[T|(t & -> & T)]]; [congruence| |now rewrite drop_final_nl_app].
      destruct (drop_final_nl_cases name) as [E|[E _]]; [|now rewrite <- E].
      exfalso. destruct T as [_ T]. apply (T 10); [rewrite E; apply in_or_app; right; now left|].
      unfold ends_name. cbn. auto.
Qed.
