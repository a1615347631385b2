(* Proofs: no step of a query runs out of fuel; tag selectors; the notation An+B. *)
From Verif Require Import Str StrFacts SerializerModel SanModel SanFacts SanTreeProofs EntitiesModel DomModel DomSpec DomViewProofs DomProofs DomInvProofs DomFinal UrlListProofs SelModel SelSpec SelNodeProofs SelSibProofs SelMatchProofs SelChainProofs SelTopProofs SelQueryProofs SelParseProofs SelWalkProofs.
From Coq Require Import Lia ZArith ZifyBool ZifyN ZifyNat.
Open Scope nat_scope.

(* ---- fuel ---- *)
Definition nofuel {A} (m : M A) : Prop := forall s, m s <> MErr EFuel.
Lemma nf_ret {A} (a : A) : nofuel (ret_ a). Proof. intros s. discriminate. Qed.
Lemma nf_raise {A} e : e <> EFuel -> nofuel (@raise A e). Proof. intros H s Q. injection Q as Q. contradiction. Qed.
Lemma nf_bind {A B} (m : M A) (f : A -> M B) : nofuel m -> (forall a, nofuel (f a)) -> nofuel (bind m f).
Proof. intros H1 H2 s. unfold bind. destruct (m s) as [a s'|e] eqn:E; [apply H2|]. intros Q. injection Q as ->. exact (H1 s E). Qed.
Lemma nf_tick over : nofuel (tick over). Proof. intros s. unfold tick. destruct (over (clock s)); discriminate. Qed.

Section S.
Variable h : heap.
Hypothesis RF : reached_full h.
Variable over : nat -> bool.
Section Level.
Variable level : nat.
Variable deeper : nat -> selector -> M bool.
Hypothesis deeper_nf : forall x s, nofuel (deeper x s).
Lemma nf_pseudo x n a : nofuel (matches_pseudo h over x n a).
Proof.
  unfold matches_pseudo. repeat match goal with
  | |- nofuel (if ?b then _ else _) => destruct b
  | |- nofuel (bind _ _) => apply nf_bind; [apply nf_tick|intros _]
  | |- nofuel (ret_ _) => apply nf_ret
  | |- nofuel (raise _) => apply nf_raise; discriminate
  | |- nofuel (match ?o with None => _ | Some _ => _ end) => destruct o
  | |- nofuel (match ?o with [] => _ | _ :: _ => _ end) => destruct o
  end.
Qed.
Lemma nf_simple x s : nofuel (matches_simple h over deeper x s).
Proof.
  unfold matches_simple. apply nf_bind; [apply nf_tick|intros _].
  assert (Kn : forall p, nofuel (matches_not deeper x p)) by (intros p; unfold matches_not; destruct p as [l|]; [|apply nf_ret]; apply nf_bind; [apply deeper_nf|intros b; apply nf_ret]).
  destruct (negb (elem h x)); destruct s; try apply nf_ret; try apply nf_pseudo; try (apply nf_bind; [apply nf_tick|intros _; apply nf_ret]); apply Kn.
Qed.
Lemma nf_all x l : nofuel (matches_all h over deeper x l).
Proof. induction l as [|s l IH]; cbn [matches_all]; [apply nf_ret|]. apply nf_bind; [apply nf_simple|]. intros b. destruct b; [exact IH|apply nf_ret]. Qed.
Lemma nf_walk c fuel : forall a path, match a with None => 1 <= fuel | Some a => exists n, depth (fun x => parent h x) a n /\ n + 2 <= fuel end -> nofuel (walk_up h over level deeper fuel c a path).
Proof.
  induction fuel as [|k IH]; intros a path H; [destruct a as [a|]; [destruct H as [n [_ H]]; lia|lia]|]. cbn [walk_up]. destruct a as [a|]; [|apply nf_ret]. destruct H as [n [D L]].
  apply nf_bind; [apply nf_tick|intros _]. intros s. destruct (lookup (cid c, level, a) (anc_cache s)); [discriminate|]. revert s. apply nf_bind; [apply nf_all|]. intros b. destruct b; [apply nf_ret|].
  apply IH. unfold parent in D. inversion D as [? P | ? p m P D']; subst; rewrite P; [lia|]. exists m. split; [exact D'|lia].
Qed.
Lemma nf_closest x c : nofuel (closest h over level deeper x c).
Proof.
  intros s. unfold closest. destruct (lookup (cid c, level, x) (anc_cache s)); [discriminate|]. revert s. apply nf_bind; [|intros r; apply nf_bind; [intros s; discriminate|intros _; apply nf_ret]].
  apply nf_walk. destruct (reached_db h RF x) as [n [D L]]. unfold parent in D. inversion D as [? P | ? p m P D']; subst; rewrite P; [lia|]. exists m. split; [exact D'|lia].
Qed.
Lemma nf_sib c l : forall lm, nofuel (sib_loop h over deeper c l lm).
Proof.
  induction l as [|y l IH]; intros lm; cbn [sib_loop]; [apply nf_ret|]. apply nf_bind; [apply nf_tick|intros _]. apply nf_bind; [destruct (elem h y); [apply nf_all|apply nf_ret]|]. intros b.
  apply nf_bind; [apply IH|intros r; apply nf_ret].
Qed.
Lemma nf_previous x c : nofuel (previous_matching h over level deeper x c).
Proof.
  unfold previous_matching. destruct (par (cell_at h x)) as [p|]; [|apply nf_ret]. apply nf_bind; [apply nf_tick|intros _].
  match goal with |- nofuel (if ?b then _ else _) => destruct b end; [apply nf_ret|]. intros s. destruct (lookup (p, cid c, level) (prev_cache s)); [discriminate|]. revert s.
  apply nf_bind; [apply nf_sib|]. intros d s. discriminate.
Qed.
Lemma nf_left rest : forall x cb, nofuel (match_left h over level deeper x cb rest).
Proof.
  induction rest as [|[cb' c] rest IH]; intros x cb; cbn [match_left]; [apply nf_ret|].
  assert (Z : nofuel (bind (previous_matching h over level deeper x c) (fun a => match a with None => ret_ false | Some a => match_left h over level deeper a cb' rest end))).
  { apply nf_bind; [apply nf_previous|]. intros [a|]; [apply IH|apply nf_ret]. }
  destruct cb as [[]|]; [| | |exact Z|exact Z].
  - apply nf_bind; [apply nf_closest|]. intros [a|]; [apply IH|apply nf_ret].
  - destruct (par (cell_at h x)) as [p|]; [|apply nf_ret]. apply nf_bind; [apply nf_all|]. intros b. destruct b; [apply IH|apply nf_ret].
  - match goal with |- nofuel (match ?o with None => _ | Some _ => _ end) => destruct o as [y|] end; [|apply nf_ret]. apply nf_bind; [apply nf_tick|intros _]. apply nf_bind; [apply nf_all|]. intros b. destruct b; [apply IH|apply nf_ret].
Qed.
Lemma nf_complex x c : nofuel (matches_complex h over level deeper x c).
Proof. unfold matches_complex. destruct (rev c) as [|[cb l] rest]; [apply nf_ret|]. apply nf_bind; [apply nf_all|]. intros b. destruct b; [apply nf_left|apply nf_ret]. Qed.
Lemma nf_any x l : nofuel (matches_any h over level deeper x l).
Proof. induction l as [|c l IH]; cbn [matches_any]; [apply nf_ret|]. apply nf_bind; [apply nf_tick|intros _]. apply nf_bind; [apply nf_complex|]. intros b. destruct b; [apply nf_ret|exact IH]. Qed.
End Level.
Lemma nf_matches room : forall x s, nofuel (matches_at h over room x s).
Proof.
  induction room as [|r IH]; intros x s; cbn [matches_at]; (apply nf_bind; [apply nf_tick|intros _]); [apply nf_raise; discriminate|].
  destruct s as [|c [|d s]]; [apply nf_any; exact IH|apply nf_complex; exact IH|apply nf_any; exact IH].
Qed.
Lemma nf_scan hit ds : (forall x, nofuel (hit x)) -> nofuel (scan over hit ds).
Proof. intros H. induction ds as [|x ds IH]; cbn [scan]; [apply nf_ret|]. apply nf_bind; [apply nf_tick|intros _]. apply nf_bind; [apply H|intros b]. apply nf_bind; [exact IH|intros r; apply nf_ret]. Qed.
End S.

(* ---- tag selectors ---- *)
Lemma name_char_iff c : name_char c = ((is_alnum c || (c =? 95) || (c =? 45) || (127 <? c))%N).
Proof.
  unfold name_char, name_start. destruct (127 <? c)%N eqn:E; [rewrite !orb_true_r; reflexivity|]. assert (Hc : (c < 128)%N) by (apply N.ltb_ge in E; lia).
  pose proof (ascii_check (fun c => Bool.eqb ((is_alpha c || (c =? 95) || (c =? 45) || (127 <? c)) || is_digit c) (is_alnum c || (c =? 95) || (c =? 45) || (127 <? c)))%N ltac:(vm_compute; reflexivity) c Hc) as G.
  cbv beta in G. apply Bool.eqb_prop in G. rewrite E in G. exact G.
Qed.
Lemma name_start_plain c : name_start c = true ->
  is_html_space c = false /\ comb_of c = None /\ (c =? 42)%N = false /\ (c =? 35)%N = false /\ (c =? 46)%N = false /\ (c =? 91)%N = false /\ (c =? 44)%N = false /\ (c =? 58)%N = false.
Proof.
  intros H. destruct (N.ltb_spec c 128).
  - pose proof (ascii_check (fun c => implb (name_start c) (negb (is_html_space c) && match comb_of c with None => true | _ => false end && negb (c =? 42) && negb (c =? 35) && negb (c =? 46) && negb (c =? 91) && negb (c =? 44) && negb (c =? 58)))%N ltac:(vm_compute; reflexivity) c H0) as G.
    cbv beta in G. rewrite H in G. cbn [implb] in G. rewrite !andb_true_iff, !negb_true_iff in G. destruct (comb_of c); [destruct G as [[[[[[[G1 G2] G3] G4] G5] G6] G7] G8]; discriminate G2|]. tauto.
  - assert (Z : forall k, (k < 128)%N -> (c =? k)%N = false) by (intros k Hk; apply N.eqb_neq; lia). unfold is_html_space, comb_of. rewrite !Z by lia. cbn. tauto.
Qed.
Lemma strip_by_idem p s : strip_by p (strip_by p s) = strip_by p s.
Proof.
  assert (R : forall s, (forall c t, rev s = c :: t -> p c = false) -> rstrip_by p s = s) by (intros s0 H; unfold rstrip_by; rewrite drop_while_id by exact H; apply rev_involutive).
  assert (L : forall s, (forall c t, s = c :: t -> p c = false) -> lstrip_by p s = s) by (intros s0 H; unfold lstrip_by; apply drop_while_id; exact H).
  assert (H1 : forall c t, strip_by p s = c :: t -> p c = false).
  { intros c t E. unfold strip_by in E. destruct (rstrip_split p (lstrip_by p s)) as [w [Q _]]. rewrite E in Q. cbn [app] in Q. unfold lstrip_by in Q at 1. exact (drop_while_head _ _ _ _ Q). }
  assert (H2 : forall c t, rev (strip_by p s) = c :: t -> p c = false).
  { intros c t E. unfold strip_by, rstrip_by in E. rewrite rev_involutive in E. exact (drop_while_head _ _ _ _ E). }
  unfold strip_by at 1. rewrite (L _ H1). apply R. exact H2.
Qed.
Lemma take_all p s : forallb p s = true -> take_while p s = s /\ drop_while p s = [].
Proof. induction s as [|c s IH]; [split; reflexivity|]. cbn [forallb take_while drop_while]. intros H. apply andb_true_iff in H. destruct H as [H1 H2]. rewrite H1. destruct (IH H2) as [-> ->]. split; reflexivity. Qed.
Lemma parse_tag s : is_simple_tag s = true -> strip s = s -> (N.of_nat (List.length s) <= 8192)%N -> parse_selector default_limits s = inl [[(None, Compound 0 [STag (lower s)])]].
Proof.
  intros H S L. unfold parse_selector. rewrite S. destruct s as [|c t]; [discriminate H|].
  assert ((max_length default_limits <? N.of_nat (List.length (c :: t)))%N = false) as -> by (apply N.ltb_ge; exact L).
  cbn [is_simple_tag] in H. apply andb_true_iff in H. destruct H as [H1 H2]. destruct (name_start_plain c H1) as (P1 & P2 & P3 & P4 & P5 & P6 & P7 & P8).
  assert (NC : forallb name_char (c :: t) = true).
  { cbn [forallb]. apply andb_true_iff. split; [unfold name_char; rewrite H1; reflexivity|]. rewrite forallb_forall in *. intros d Hd. rewrite name_char_iff. exact (H2 d Hd). }
  assert (T : tokens_of (c :: t) = Some [TTag (lower (c :: t))]).
  { unfold tokens_of. cbn [List.length]. cbn [tokenize]. rewrite P1, P2. cbn [andb]. unfold tok_one. rewrite P3, P4, P5, P6, P7, P8, H1. unfold read_name. destruct (take_all _ _ NC) as [-> ->]. reflexivity. }
  cbn [max_parse_depth default_limits parse_at]. rewrite T. reflexivity.
Qed.

(* ---- An+B ---- *)
Lemma digit_val c : is_digit_ascii c = true -> py_digit false c = Some (c - 48)%N.
Proof.
  intros H. assert (Hc : (c < 128)%N) by (unfold is_digit_ascii in H; lia).
  pose proof (ascii_check (fun c => implb (is_digit_ascii c) (match py_digit false c with Some d => d =? c - 48 | None => false end))%N ltac:(vm_compute; reflexivity) c Hc) as G. cbv beta in G. rewrite H in G. cbn [implb] in G.
  destruct (py_digit false c); [|discriminate G]. apply N.eqb_eq in G. congruence.
Qed.
Lemma int_digits_ok s : digits s -> forall gap acc, (s <> [] \/ gap = false) -> int_digits gap acc s = Some (Z.to_N (fold_left (fun a c => (a * 10 + (Z.of_N c - 48))%Z) s (Z.of_N acc))).
Proof.
  intros D. induction s as [|c s IH]; intros gap acc H; cbn [int_digits fold_left].
  - destruct H as [H | ->]; [contradiction|]. rewrite N2Z.id. reflexivity.
  - unfold digits in D. cbn [forallb] in D. apply andb_true_iff in D. destruct D as [D1 D2]. rewrite (digit_val _ D1). assert ((c =? 95)%N = false) as -> by (unfold is_digit_ascii in D1; lia).
    rewrite (IH D2) by (right; reflexivity). assert (Z.of_N (acc * 10 + (c - 48)) = (Z.of_N acc * 10 + (Z.of_N c - 48))%Z) as -> by (unfold is_digit_ascii in D1; lia). reflexivity.
Qed.
Lemma value_pos s a : digits s -> (0 <= a)%Z -> (0 <= fold_left (fun a c => (a * 10 + (Z.of_N c - 48))%Z) s a)%Z.
Proof.
  revert a. induction s as [|c s IH]; intros a D H; [exact H|]. unfold digits in D. cbn [forallb] in D. apply andb_true_iff in D. destruct D as [D1 D2]. cbn [fold_left]. apply IH; [exact D2|]. unfold is_digit_ascii in D1. lia.
Qed.
Lemma digit_not_space c : is_digit_ascii c = true -> is_space c = false.
Proof. intros H. assert (Hc : (c < 128)%N) by (unfold is_digit_ascii in H; lia). pose proof (ascii_check (fun c => implb (is_digit_ascii c) (negb (is_space c))) ltac:(vm_compute; reflexivity) c Hc) as G. cbv beta in G. rewrite H in G. cbn [implb] in G. apply negb_true_iff in G. exact G. Qed.
Lemma strip_none s : (forall c, In c s -> is_space c = false) -> strip s = s.
Proof.
  intros H. unfold strip, strip_by, lstrip_by. rewrite drop_while_id by (intros c t ->; apply H; left; reflexivity). unfold rstrip_by. rewrite drop_while_id; [apply rev_involutive|].
  intros c t E. apply H. apply in_rev. rewrite E. left. reflexivity.
Qed.
Lemma int_signed sg m d : opt_sign sg m -> digits d -> d <> [] -> py_int_str (sg ++ d) = Some (signed m (value d)).
Proof.
  intros S D N. assert (V : int_digits true 0 d = Some (Z.to_N (value d))) by (apply (int_digits_ok d D true 0%N); left; exact N).
  assert (P : (0 <= value d)%Z) by (apply value_pos; [exact D|lia]).
  assert (DS : forall c, In c d -> is_digit_ascii c = true) by (unfold digits in D; rewrite forallb_forall in D; exact D).
  assert (T : strip (sg ++ d) = (sg ++ d)%list).
  { apply strip_none. intros c Hc. apply in_app_or in Hc. destruct Hc as [Hc | Hc]; [|apply digit_not_space; auto]. destruct S as [|sg m [ | ]]; [destruct Hc| |]; (destruct Hc as [<- | []]; vm_compute; reflexivity). }
  unfold py_int_str. rewrite T. destruct S as [|sg m [ | ]].
  - cbn [app]. destruct d as [|c t]; [contradiction|]. assert (Q : is_digit_ascii c = true) by (apply DS; left; reflexivity).
    assert ((c =? 45)%N = false) as -> by (unfold is_digit_ascii in Q; lia). assert ((c =? 43)%N = false) as -> by (unfold is_digit_ascii in Q; lia). rewrite V. cbn [option_map signed]. f_equal. lia.
  - cbn [app u]. change (u "+" ++ d)%list with (43%N :: d). cbn [app]. change (43 =? 45)%N with false. change (43 =? 43)%N with true. cbv iota. rewrite V. cbn [option_map signed]. f_equal. lia.
  - change (u "-" ++ d)%list with (45%N :: d). change (45 =? 45)%N with true. cbv iota. rewrite V. cbn [option_map signed]. rewrite Z2N.id by exact P. reflexivity.
Qed.
(* the characters of an An+B expression *)
Definition nth_char (c : N) : bool := (is_digit_ascii c || (c =? 43) || (c =? 45) || (c =? 110) || (c =? 32))%N.
Lemma nth_char_facts c : nth_char c = true -> lower_c c = [c] /\ c <> 111%N /\ c <> 101%N /\ (c <> 32%N -> is_space c = false).
Proof.
  intros H. assert (Hc : (c < 128)%N) by (unfold nth_char, is_digit_ascii in H; lia).
  pose proof (ascii_check (fun c => implb (nth_char c) (str_eqb (lower_c c) [c] && negb (c =? 111) && negb (c =? 101) && implb (negb (c =? 32)) (negb (is_space c))))%N ltac:(vm_compute; reflexivity) c Hc) as G.
  cbv beta in G. rewrite H in G. cbn [implb] in G. rewrite !andb_true_iff in G. destruct G as [[[G1 G2] G3] G4]. apply str_eqb_iff in G1. split; [exact G1|]. split; [lia|]. split; [lia|].
  intros N. assert ((c =? 32)%N = false) as Q by lia. rewrite Q in G4. cbn [negb implb] in G4. apply negb_true_iff. exact G4.
Qed.
Lemma lower_nth s : forallb nth_char s = true -> lower s = s.
Proof.
  induction s as [|c s IH]; [reflexivity|]. cbn [forallb]. intros H. apply andb_true_iff in H. destruct H as [H1 H2]. unfold lower. cbn [flat_map]. rewrite (proj1 (nth_char_facts c H1)). cbn [app]. f_equal. exact (IH H2).
Qed.
Lemma strip_ends s a t b t' : s = a :: t -> rev s = b :: t' -> is_space a = false -> is_space b = false -> strip s = s.
Proof.
  intros E1 E2 Ha Hb. unfold strip, strip_by, lstrip_by. rewrite drop_while_id by (intros c r Q; congruence). unfold rstrip_by. rewrite drop_while_id by (intros c r Q; congruence). apply rev_involutive.
Qed.
Lemma replace_app a b : replace_char 32 [] (a ++ b) = (replace_char 32 [] a ++ replace_char 32 [] b)%list.
Proof. unfold replace_char. apply flat_map_app. Qed.
Lemma replace_none s : (forall c, In c s -> c <> 32%N) -> replace_char 32 [] s = s.
Proof. intros H. induction s as [|c s IH]; [reflexivity|]. unfold replace_char in *. cbn [flat_map]. assert ((c =? 32)%N = false) as -> by (apply N.eqb_neq; apply H; left; reflexivity). cbn [app]. f_equal. apply IH. intros d Hd. apply H. right. exact Hd. Qed.
Lemma replace_spaces n : replace_char 32 [] (repeat 32%N n) = [].
Proof. induction n as [|n IH]; [reflexivity|]. cbn [repeat]. unfold replace_char in *. cbn [flat_map]. exact IH. Qed.
Lemma split_no c s : ~ In c s -> split_char c s = [s].
Proof. induction s as [|x s IH]; intros H; [reflexivity|]. cbn [split_char]. assert ((x =? c)%N = false) as -> by (apply N.eqb_neq; intros ->; apply H; left; reflexivity). rewrite IH by (intros Q; apply H; right; exact Q). reflexivity. Qed.
Lemma split_one c a b : ~ In c a -> split_char c (a ++ c :: b) = a :: split_char c b.
Proof.
  induction a as [|x a IH]; intros H; cbn [app split_char]; [rewrite N.eqb_refl; reflexivity|]. assert ((x =? c)%N = false) as -> by (apply N.eqb_neq; intros ->; apply H; left; reflexivity).
  rewrite IH by (intros Q; apply H; right; exact Q). reflexivity.
Qed.
Lemma mem_In c s : mem c s = true <-> In c s.
Proof. unfold mem. rewrite existsb_exists. split; [intros [x [H1 H2]]; apply N.eqb_eq in H2; subst; exact H1|intros H; exists c; split; [exact H|apply N.eqb_refl]]. Qed.
Lemma digits_nth d : digits d -> forall c, In c d -> nth_char c = true /\ c <> 32%N /\ c <> 110%N.
Proof. unfold digits. intros H c Hc. rewrite forallb_forall in H. specialize (H c Hc). unfold nth_char. rewrite H. split; [reflexivity|]. unfold is_digit_ascii in H. lia. Qed.
Lemma sign_nth s m : opt_sign s m -> forall c, In c s -> nth_char c = true /\ c <> 32%N /\ c <> 110%N.
Proof. intros [ | s' m' [ | ]] c Hc; [destruct Hc| |]; (destruct Hc as [<- | []]; split; [reflexivity|]; split; discriminate). Qed.
Lemma nth_core e a b : forallb nth_char e = true -> (exists x t, e = x :: t /\ x <> 32%N) -> (exists y t, rev e = y :: t /\ y <> 32%N) ->
  In 110%N e -> split_char 110 (replace_char 32 [] e) = [a; b] -> forall va vb,
  match a with [] => Some 1%Z | _ => if str_eqb a (u "+") then Some 1%Z else if str_eqb a (u "-") then Some (-1)%Z else py_int_str a end = Some va ->
  match b with [] => Some 0%Z | _ => py_int_str b end = Some vb -> parse_nth (Some e) = Some (va, vb).
Proof.
  intros A [x [t [E1 Nx]]] [y [t' [E2 Ny]]] I S va vb Ea Eb.
  assert (NC : forall c, In c e -> nth_char c = true) by (rewrite forallb_forall in A; exact A).
  assert (Ix : In x e) by (rewrite E1; left; reflexivity). assert (Iy : In y e) by (apply in_rev; rewrite E2; left; reflexivity).
  assert (ST : strip e = e). { apply (strip_ends e x t y t' E1 E2); [apply (nth_char_facts x (NC x Ix)); exact Nx|apply (nth_char_facts y (NC y Iy)); exact Ny]. }
  unfold parse_nth. destruct e as [|x' t0] eqn:Ee; [discriminate E1|]. rewrite <- Ee in *. rewrite ST, (lower_nth e A).
  assert (x' = x) as -> by (rewrite Ee in E1; congruence).
  assert (str_eqb e (u "odd") = false) as ->. { destruct (str_eqb e (u "odd")) eqn:Q; [|reflexivity]. apply str_eqb_iff in Q. exfalso. destruct (nth_char_facts 111%N) as [_ [X _]]; [apply NC; rewrite Q; left; reflexivity|exact (X eq_refl)]. }
  assert (str_eqb e (u "even") = false) as ->. { destruct (str_eqb e (u "even")) eqn:Q; [|reflexivity]. apply str_eqb_iff in Q. exfalso. destruct (nth_char_facts 101%N) as [_ [_ [X _]]]; [apply NC; rewrite Q; left; reflexivity|exact (X eq_refl)]. }
  assert (mem 110 (replace_char 32 [] e) = true) as ->.
  { apply mem_In. unfold replace_char. apply in_flat_map. exists 110%N. split; [exact I|left; reflexivity]. }
  rewrite S, Ea, Eb. reflexivity.
Qed.
Lemma coef_ok s m d : opt_sign s m -> digits d ->
  match (s ++ d)%list with [] => Some 1%Z | _ => if str_eqb (s ++ d) (u "+") then Some 1%Z else if str_eqb (s ++ d) (u "-") then Some (-1)%Z else py_int_str (s ++ d) end = Some (coefficient m d).
Proof.
  intros S D. unfold coefficient. destruct d as [|c d].
  - rewrite app_nil_r. destruct S as [|s m [ | ]]; reflexivity.
  - assert (Q : forall k : N, is_digit_ascii k = false -> str_eqb (s ++ c :: d) [k] = false).
    { intros k Hk. destruct (str_eqb (s ++ c :: d) [k]) eqn:Z; [|reflexivity]. apply str_eqb_iff in Z. assert (In c [k]) by (rewrite <- Z; apply in_or_app; right; left; reflexivity).
      destruct H as [<- | []]. unfold digits in D. cbn [forallb] in D. rewrite Hk in D. discriminate D. }
    rewrite (Q 43%N eq_refl : str_eqb (s ++ c :: d) (u "+") = false), (Q 45%N eq_refl : str_eqb (s ++ c :: d) (u "-") = false).
    rewrite (int_signed s m (c :: d) S D) by discriminate. destruct (s ++ c :: d)%list eqn:Z; [destruct s; discriminate Z|reflexivity].
Qed.
(* An+B, with any number of blanks around the second sign *)
Lemma nth_an_b s1 m1 d1 n1 s2 m2 n2 d2 : opt_sign s1 m1 -> digits d1 -> sign s2 m2 -> digits d2 -> d2 <> [] ->
  parse_nth (Some (s1 ++ d1 ++ [110%N] ++ repeat 32%N n1 ++ s2 ++ repeat 32%N n2 ++ d2)) = Some (coefficient m1 d1, signed m2 (value d2)).
Proof.
  intros S1 D1 S2 D2 N2. set (e := (s1 ++ d1 ++ [110%N] ++ repeat 32%N n1 ++ s2 ++ repeat 32%N n2 ++ d2)%list).
  assert (F1 := sign_nth _ _ S1). assert (F2 := digits_nth _ D1). assert (F3 := sign_nth _ _ (os_sign _ _ S2)). assert (F4 := digits_nth _ D2).
  assert (FR : forall n c, In c (repeat 32%N n) -> c = 32%N) by (intros n c Hc; symmetry; apply repeat_spec in Hc; congruence).
  apply (nth_core e (s1 ++ d1) (s2 ++ d2)).
  - apply forallb_forall. unfold e. intros c Hc. repeat (apply in_app_or in Hc; destruct Hc as [Hc | Hc]); try (apply F1; exact Hc); try (apply F2; exact Hc); try (apply F3; exact Hc); try (apply F4; exact Hc); try (rewrite (FR _ _ Hc); reflexivity).
    destruct Hc as [<- | []]. reflexivity.
  - unfold e. destruct s1 as [|c t]; [|exists c; eexists; split; [reflexivity|apply (F1 c); left; reflexivity]]. destruct d1 as [|c t]; [|exists c; eexists; split; [reflexivity|apply (F2 c); left; reflexivity]].
    exists 110%N. eexists. split; [reflexivity|discriminate].
  - unfold e. rewrite !rev_app_distr. destruct (rev d2) as [|c t] eqn:R; [apply (f_equal (@rev N)) in R; rewrite rev_involutive in R; contradiction|]. exists c. eexists. split; [rewrite <- !app_assoc; reflexivity|].
    apply (F4 c). apply in_rev. rewrite R. left. reflexivity.
  - unfold e. apply in_or_app. right. apply in_or_app. right. left. reflexivity.
  - unfold e. rewrite !replace_app, !replace_spaces. rewrite (replace_none s1), (replace_none d1), (replace_none s2), (replace_none d2); try (intros c Hc; first [exact (proj1 (proj2 (F1 c Hc)))|exact (proj1 (proj2 (F2 c Hc)))|exact (proj1 (proj2 (F3 c Hc)))|exact (proj1 (proj2 (F4 c Hc)))]).
    change (replace_char 32 [] [110%N]) with [110%N]. cbn [app]. rewrite app_assoc. rewrite split_one.
    + rewrite split_no; [reflexivity|]. intros Q. apply in_app_or in Q. destruct Q as [Q | Q]; [apply (F3 _ Q)|apply (F4 _ Q)]; reflexivity.
    + intros Q. apply in_app_or in Q. destruct Q as [Q | Q]; [apply (F1 _ Q)|apply (F2 _ Q)]; reflexivity.
  - apply coef_ok; assumption.
  - rewrite (int_signed s2 m2 d2 (os_sign _ _ S2) D2 N2). destruct (s2 ++ d2)%list eqn:Z; [destruct S2; discriminate Z|reflexivity].
Qed.
Lemma nth_an s1 m1 d1 : opt_sign s1 m1 -> digits d1 -> parse_nth (Some (s1 ++ d1 ++ [110%N])) = Some (coefficient m1 d1, 0%Z).
Proof.
  intros S1 D1. assert (F1 := sign_nth _ _ S1). assert (F2 := digits_nth _ D1). apply (nth_core (s1 ++ d1 ++ [110%N]) (s1 ++ d1) []).
  - apply forallb_forall. intros c Hc. repeat (apply in_app_or in Hc; destruct Hc as [Hc | Hc]); try (apply F1; exact Hc); try (apply F2; exact Hc). destruct Hc as [<- | []]. reflexivity.
  - destruct s1 as [|c t]; [|exists c; eexists; split; [reflexivity|apply (F1 c); left; reflexivity]]. destruct d1 as [|c t]; [|exists c; eexists; split; [reflexivity|apply (F2 c); left; reflexivity]].
    exists 110%N. eexists. split; [reflexivity|discriminate].
  - rewrite !rev_app_distr. exists 110%N. eexists. split; [reflexivity|discriminate].
  - apply in_or_app. right. apply in_or_app. right. left. reflexivity.
  - rewrite !replace_app. rewrite (replace_none s1), (replace_none d1); try (intros c Hc; first [exact (proj1 (proj2 (F1 c Hc)))|exact (proj1 (proj2 (F2 c Hc)))]).
    change (replace_char 32 [] [110%N]) with [110%N]. rewrite app_assoc, split_one; [reflexivity|]. intros Q. apply in_app_or in Q. destruct Q as [Q | Q]; [apply (F1 _ Q)|apply (F2 _ Q)]; reflexivity.
  - apply coef_ok; assumption.
  - reflexivity.
Qed.
Lemma nth_b s m d : opt_sign s m -> digits d -> d <> [] -> parse_nth (Some (s ++ d)) = Some (0%Z, signed m (value d)).
Proof.
  intros S D N. assert (F1 := sign_nth _ _ S). assert (F2 := digits_nth _ D).
  assert (A : forall c, In c (s ++ d) -> nth_char c = true /\ c <> 32%N /\ c <> 110%N) by (intros c Hc; apply in_app_or in Hc; destruct Hc; auto).
  assert (ST : strip (s ++ d) = (s ++ d)%list) by (apply strip_none; intros c Hc; destruct (A c Hc) as [A1 [A2 _]]; apply (nth_char_facts c A1); exact A2).
  assert (LW : lower (s ++ d) = (s ++ d)%list) by (apply lower_nth; apply forallb_forall; intros c Hc; apply (A c Hc)).
  assert (RP : replace_char 32 [] (s ++ d) = (s ++ d)%list) by (apply replace_none; intros c Hc; apply (A c Hc)).
  assert (MM : mem 110 (s ++ d) = false) by (destruct (mem 110 (s ++ d)) eqn:Q; [|reflexivity]; apply mem_In in Q; exfalso; apply (A _ Q); reflexivity).
  assert (O1 : str_eqb (s ++ d) (u "odd") = false). { destruct (str_eqb (s ++ d) (u "odd")) eqn:Q; [|reflexivity]. apply str_eqb_iff in Q. exfalso. destruct (nth_char_facts 111%N) as [_ [X _]]; [apply (A 111%N); rewrite Q; left; reflexivity|exact (X eq_refl)]. }
  assert (O2 : str_eqb (s ++ d) (u "even") = false). { destruct (str_eqb (s ++ d) (u "even")) eqn:Q; [|reflexivity]. apply str_eqb_iff in Q. exfalso. destruct (nth_char_facts 101%N) as [_ [_ [X _]]]; [apply (A 101%N); rewrite Q; left; reflexivity|exact (X eq_refl)]. }
  pose proof (int_signed s m d S D N) as V. remember (s ++ d)%list as e eqn:Ee. unfold parse_nth. destruct e as [|c t]; [destruct s, d; try discriminate Ee; contradiction|].
  rewrite ST, LW, O1, O2, RP, MM, V. reflexivity.
Qed.

Lemma nth_notation_ok e a b : nth_notation e a b -> parse_nth (Some e) = Some (a, b).
Proof.
  intros [ | | s m d S D N | s m d S D | s1 m1 d1 n1 s2 m2 n2 d2 S1 D1 S2 D2 N2]; [reflexivity|reflexivity|apply nth_b; assumption|apply nth_an; assumption|apply nth_an_b; assumption].
Qed.
