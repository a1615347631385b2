(* Lemmas about the string primitives of Str.v. *)
From Coq Require Import Lia ZifyBool ZifyN ZifyNat.
From Verif Require Export Str.
Open Scope N_scope.

Lemma mem_In c s : mem c s = true <-> In c s.
Proof.
  unfold mem; rewrite existsb_exists; split.
  - intros (x & Hx & E); apply N.eqb_eq in E; subst; exact Hx.
  - intros H; exists c; split; [exact H | apply N.eqb_refl].
Qed.

Lemma mem_false_In c s : mem c s = false <-> ~ In c s.
Proof. rewrite <- mem_In; destruct (mem c s); split; congruence. Qed.

Lemma mem_app c a b : mem c (a ++ b)%list = mem c a || mem c b.
Proof. apply existsb_app. Qed.

Lemma mem_cons c x s : mem c (x :: s) = (c =? x) || mem c s.
Proof. reflexivity. Qed.

Lemma str_eqb_eq a b : str_eqb a b = true <-> a = b.
Proof.
  revert b; induction a as [|x a IH]; intros [|y b]; cbn [str_eqb]; try (split; congruence).
  rewrite Bool.andb_true_iff, N.eqb_eq, IH; split.
  - intros [-> ->]; reflexivity.
  - intros H; injection H; auto.
Qed.

Lemma str_eqb_refl a : str_eqb a a = true.
Proof. apply str_eqb_eq; reflexivity. Qed.

Lemma str_eqb_neq a b : str_eqb a b = false <-> a <> b.
Proof. rewrite <- str_eqb_eq; destruct (str_eqb a b); split; congruence. Qed.

Lemma in_strs_In s l : in_strs s l = true <-> In s l.
Proof.
  unfold in_strs; rewrite existsb_exists; split.
  - intros (x & Hx & E); apply str_eqb_eq in E; subst; exact Hx.
  - intros H; exists s; split; [exact H | apply str_eqb_refl].
Qed.

Lemma starts_spec p s : starts p s = true <-> exists t, s = (p ++ t)%list.
Proof.
  revert s; induction p as [|x p IH]; intros s; cbn [starts].
  - split; [intros _; exists s; reflexivity | reflexivity].
  - destruct s as [|y s].
    + split; [discriminate | intros (t & E); discriminate].
    + rewrite Bool.andb_true_iff, N.eqb_eq, IH; split.
      * intros [-> (t & ->)]; exists t; reflexivity.
      * intros (t & E); cbn in E; injection E as -> ->; split; [reflexivity | exists t; reflexivity].
Qed.

Lemma starts_app p t : starts p (p ++ t)%list = true.
Proof. apply starts_spec; exists t; reflexivity. Qed.

Lemma find_Some needle s n :
  find needle s = Some n ->
  exists a b, s = (a ++ needle ++ b)%list /\ List.length a = n /\
  (forall a' b', s = (a' ++ needle ++ b')%list -> (n <= List.length a')%nat).
Proof.
  revert n; induction s as [|x s IH]; intros n; cbn [find].
  - destruct (starts needle []) eqn:E; [|discriminate].
    intros H; injection H as <-. apply starts_spec in E; destruct E as (t & Et).
    exists [], t; split; [exact Et|]; split; [reflexivity|]. intros; lia.
  - destruct (starts needle (x :: s)) eqn:E.
    + intros H; injection H as <-. apply starts_spec in E; destruct E as (t & Et).
      exists [], t; split; [exact Et|]; split; [reflexivity|]. intros; lia.
    + destruct (find needle s) as [m|] eqn:F; [|discriminate].
      cbn; intros H; injection H as <-.
      destruct (IH m eq_refl) as (a & b & E1 & E2 & E3).
      exists (x :: a), b; split; [cbn; rewrite E1; reflexivity|]; split; [cbn; lia|].
      intros [|y a'] b' E'.
      * cbn in E'. exfalso. rewrite E' in E. rewrite starts_app in E; discriminate.
      * cbn in E'; injection E' as _ E'. apply E3 in E'. cbn; lia.
Qed.

Lemma find_None needle s : find needle s = None <-> (forall a b, s <> (a ++ needle ++ b)%list).
Proof.
  split.
  - revert needle; induction s as [|x s IH]; intros needle; cbn [find].
    + destruct (starts needle []) eqn:E; [discriminate|]. intros _ a b H.
      destruct a; [|discriminate]. cbn in H. rewrite H in E; rewrite starts_app in E; discriminate.
    + destruct (starts needle (x :: s)) eqn:E; [discriminate|].
      destruct (find needle s) eqn:F; [discriminate|]. intros _ [|y a] b H.
      * cbn in H; rewrite H, starts_app in E; discriminate.
      * cbn in H; injection H as _ H. exact (IH needle F _ _ H).
  - intros H. destruct (find needle s) as [n|] eqn:E; [|reflexivity].
    apply find_Some in E; destruct E as (a & b & E & _). exfalso; exact (H a b E).
Qed.

Lemma contains_spec needle s : contains needle s = true <-> exists a b, s = (a ++ needle ++ b)%list.
Proof.
  unfold contains; destruct (find needle s) as [n|] eqn:E; split; try discriminate.
  - intros _. apply find_Some in E; destruct E as (a & b & E & _); eauto.
  - reflexivity.
  - intros (a & b & H); rewrite find_None in E; exfalso; exact (E a b H).
Qed.

Lemma contains_false needle s : contains needle s = false <-> forall a b, s <> (a ++ needle ++ b)%list.
Proof.
  unfold contains; destruct (find needle s) as [n|] eqn:E; split; try discriminate; try reflexivity.
  - intros H. apply find_Some in E; destruct E as (a & b & E & _). exfalso; exact (H a b E).
  - intros _. apply find_None; exact E.
Qed.

Lemma find_char_Some c s n :
  find_char c s = Some n -> exists a b, s = (a ++ c :: b)%list /\ List.length a = n /\ ~ In c a.
Proof.
  revert n; induction s as [|x s IH]; intros n; cbn [find_char]; [discriminate|].
  destruct (N.eqb_spec x c) as [->|Hne].
  - intros H; injection H as <-. exists [], s; repeat split; auto.
  - destruct (find_char c s) as [m|]; [|discriminate]. cbn; intros H; injection H as <-.
    destruct (IH m eq_refl) as (a & b & -> & <- & Hn).
    exists (x :: a), b; repeat split; auto. intros [->|H]; auto.
Qed.

Lemma find_char_None c s : find_char c s = None <-> ~ In c s.
Proof.
  induction s as [|x s IH]; cbn [find_char In]; [tauto|].
  destruct (N.eqb_spec x c) as [->|Hne].
  - split; [discriminate | intros H; exfalso; apply H; auto].
  - destruct (find_char c s); cbn; split; try discriminate; try tauto.
    intros H; exfalso. destruct IH as [_ IH]. assert (~ In c s) by tauto. specialize (IH H0); discriminate.
Qed.

Lemma replace_char_app c new a b :
  replace_char c new (a ++ b)%list = (replace_char c new a ++ replace_char c new b)%list.
Proof. apply flat_map_app. Qed.

Lemma drop_while_app p s : s = (take_while p s ++ drop_while p s)%list.
Proof.
  induction s as [|c s IH]; cbn [take_while drop_while]; [reflexivity|].
  destruct (p c); cbn; [rewrite <- IH|]; reflexivity.
Qed.

Lemma take_while_all p s : forallb p (take_while p s) = true.
Proof. induction s as [|c s IH]; cbn; [reflexivity|]; destruct (p c) eqn:E; cbn; [rewrite E|]; auto. Qed.

Lemma drop_while_head p s c t : drop_while p s = c :: t -> p c = false.
Proof.
  induction s as [|x s IH]; cbn; [discriminate|]. destruct (p x) eqn:E; [exact IH|].
  intros H; injection H as -> _; exact E.
Qed.

Lemma drop_while_id p s : (forall c t, s = c :: t -> p c = false) -> drop_while p s = s.
Proof. destruct s as [|c t]; cbn; [reflexivity|]; intros H; rewrite (H c t eq_refl); reflexivity. Qed.

Lemma drop_while_incl p s : incl (drop_while p s) s.
Proof. induction s as [|x s IH]; cbn; [apply incl_refl|]. destruct (p x); [apply incl_tl; exact IH | apply incl_refl]. Qed.

Lemma rstrip_split p s : exists w, s = (rstrip_by p s ++ w)%list /\ forallb p w = true.
Proof.
  unfold rstrip_by. exists (rev (take_while p (rev s))). split.
  - rewrite <- rev_app_distr, <- drop_while_app, rev_involutive; reflexivity.
  - rewrite forallb_forall; intros x Hx. apply in_rev in Hx.
    pose proof (take_while_all p (rev s)) as H; rewrite forallb_forall in H; auto.
Qed.

Lemma lstrip_split p s : exists w, s = (w ++ lstrip_by p s)%list /\ forallb p w = true.
Proof. exists (take_while p s); split; [apply drop_while_app | apply take_while_all]. Qed.

Lemma strip_split p s : exists w1 w2, s = (w1 ++ strip_by p s ++ w2)%list /\ forallb p w1 = true /\ forallb p w2 = true.
Proof.
  unfold strip_by. destruct (lstrip_split p s) as (w1 & E1 & H1).
  destruct (rstrip_split p (lstrip_by p s)) as (w2 & E2 & H2).
  exists w1, w2; split; [|auto]. rewrite <- E2; exact E1.
Qed.

Lemma strip_incl p s : incl (strip_by p s) s.
Proof.
  destruct (strip_split p s) as (w1 & w2 & E & _). intros x Hx. rewrite E.
  apply in_or_app; right; apply in_or_app; left; exact Hx.
Qed.

(* The first and the last character of a stripped string are not in the stripped class. *)
Lemma strip_first p s c t : strip_by p s = c :: t -> p c = false.
Proof.
  unfold strip_by. destruct (rstrip_split p (lstrip_by p s)) as (w & E & _).
  intros H. rewrite H in E. unfold lstrip_by in E. eapply drop_while_head; exact E.
Qed.

Lemma strip_last p s c t : strip_by p s = (t ++ [c])%list -> p c = false.
Proof.
  unfold strip_by, rstrip_by. intros H.
  assert (E : drop_while p (rev (lstrip_by p s)) = c :: rev t).
  { rewrite <- (rev_involutive (drop_while p _)), H, rev_app_distr; reflexivity. }
  eapply drop_while_head; exact E.
Qed.

Lemma strip_by_id p s :
  (forall c t, s = c :: t -> p c = false) -> (forall c t, s = (t ++ [c])%list -> p c = false) -> strip_by p s = s.
Proof.
  intros H1 H2. unfold strip_by, lstrip_by. rewrite (drop_while_id p s H1). unfold rstrip_by.
  rewrite drop_while_id; [apply rev_involutive|]. intros c t E. apply (H2 c (rev t)).
  rewrite <- (rev_involutive s), E; reflexivity.
Qed.

Lemma strip_idem p s : strip_by p (strip_by p s) = strip_by p s.
Proof. apply strip_by_id; intros; [eapply strip_first | eapply strip_last]; eassumption. Qed.

Lemma lower_app a b : lower (a ++ b)%list = (lower a ++ lower b)%list.
Proof. apply flat_map_app. Qed.

Lemma alow_length s : List.length (alow s) = List.length s.
Proof. apply map_length. Qed.

Lemma alow_c_idem c : alow_c (alow_c c) = alow_c c.
Proof. unfold alow_c, is_upper_ascii. destruct ((65 <=? c) && (c <=? 90)) eqn:E; [|rewrite E; reflexivity].
  destruct ((65 <=? c + 32) && (c + 32 <=? 90)) eqn:E2; lia. Qed.

Lemma alow_idem s : alow (alow s) = alow s.
Proof. unfold alow; rewrite map_map; apply map_ext; intros; apply alow_c_idem. Qed.

Lemma lower_ascii s : is_ascii s = true -> lower s = alow s.
Proof.
  induction s as [|c s IH]; cbn [is_ascii forallb lower flat_map alow map]; [reflexivity|].
  intros H; apply andb_prop in H; destruct H as [Hc Hs]. unfold is_ascii_char in Hc.
  unfold lower_c at 1; rewrite Hc. cbn. f_equal. apply IH; exact Hs.
Qed.

(* What str.lower() does outside ASCII: facts read off the generated table. *)
Definition entry_ok (e : N * N * N * N) : bool :=
  let '(lo, hi, step, img) := e in
  (128 <=? lo) && (lo <=? hi) && ((128 <=? img) || ((lo =? 8490) && (hi =? 8490) && (img =? 107))).

Lemma lower_entries_ok : forallb entry_ok lower_entries = true.
Proof. vm_compute; reflexivity. Qed.

Lemma lower_lookup_ok l c d :
  forallb entry_ok l = true -> lower_lookup l c = Some d -> (128 <= c) /\ (128 <= d \/ (c = 8490 /\ d = 107)).
Proof.
  induction l as [|[[[lo hi] step] img] l IH]; cbn [forallb lower_lookup]; [discriminate|].
  intros H; apply andb_prop in H; destruct H as [He Hl]. unfold entry_ok in He.
  destruct ((lo <=? c) && (c <=? hi) && ((c - lo) mod step =? 0)) eqn:E.
  - intros H; injection H as <-. lia.
  - intros H; exact (IH Hl H).
Qed.

(* The lower-casing of a non-ASCII code point is non-ASCII except for U+0130 and U+212A. *)
Lemma lower_c_nonascii c : 128 <= c -> c <> 304 -> c <> 8490 -> exists d, lower_c c = [d] /\ 128 <= d.
Proof.
  intros Hc H1 H2. unfold lower_c. replace (c <? 128) with false by lia. replace (c =? 304) with false by lia.
  destruct (lower_lookup lower_entries c) as [d|] eqn:E; [|exists c; auto].
  apply lower_lookup_ok in E; [|exact lower_entries_ok]. exists d; split; [reflexivity|lia].
Qed.

Lemma lower_c_ascii c : c < 128 -> lower_c c = [alow_c c].
Proof. intros H; unfold lower_c; replace (c <? 128) with true by lia; reflexivity. Qed.

Lemma lower_c_kelvin : lower_c 8490 = [107].
Proof. vm_compute; reflexivity. Qed.
Lemma lower_c_dotted_I : lower_c 304 = [105; 775].
Proof. vm_compute; reflexivity. Qed.
