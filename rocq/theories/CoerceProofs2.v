From Coq Require Import Lia ZArith.
From Verif Require Import Str StrFacts UrlModel EntitiesModel SerializerModel CoerceModel CoerceSpec CoerceProofs.

Lemma alpha_letter c : is_alpha_ascii c = true <-> letter c.
Proof. unfold is_alpha_ascii, is_upper_ascii, is_lower_ascii, letter. rewrite orb_true_iff, !andb_true_iff, !N.leb_le. tauto. Qed.
Lemma start_spec c : pi_name_start c = true <-> c = 95 \/ letter c.
Proof. unfold pi_name_start. rewrite orb_true_iff, N.eqb_eq, alpha_letter. tauto. Qed.
Lemma name_char_spec c : pi_name_char c = true <-> name_char c.
Proof. unfold pi_name_char, name_char, is_digit_ascii. rewrite !orb_true_iff, !N.eqb_eq, alpha_letter, andb_true_iff, !N.leb_le. tauto. Qed.
Lemma white_spec c : mem c SPACE = true <-> white c.
Proof. rewrite mem_In. unfold SPACE, white. cbn [In]. split; [intros [H|[H|[H|[H|[H|[]]]]]]; subst; tauto|intros [H|[H|[H|[H|H]]]]; subst; tauto]. Qed.
Lemma white_not_name c : white c -> pi_name_char c = false.
Proof. intros [-> |[-> |[-> |[-> | ->]]]]; reflexivity. Qed.

Lemma lower_ascii c : c < 128 -> lower_c c = [alow_c c].
Proof.
  intros H. assert (F : forallb (fun n => str_eqb (lower_c (N.of_nat n)) [alow_c (N.of_nat n)]) (seq 0 128) = true) by (vm_compute; reflexivity).
  rewrite forallb_forall in F. specialize (F (N.to_nat c)). rewrite N2Nat.id in F. apply str_eqb_eq, F, in_seq. lia.
Qed.
Lemma name_ascii c : name_char c -> c < 128.
Proof. unfold name_char, letter. lia. Qed.
Lemma start_name c : c = 95 \/ letter c -> name_char c.
Proof. unfold name_char. tauto. Qed.
Lemma lower_name s : Forall name_char s -> lower s = map alow_c s.
Proof. induction 1 as [|c s H _ IH]; [reflexivity|]. unfold lower in *. cbn [flat_map map]. rewrite (lower_ascii c (name_ascii c H)), IH. reflexivity. Qed.
Lemma alow_is c x : 97 <= x -> x <= 122 -> (alow_c c =? x) = true <-> c = x \/ c = x - 32.
Proof. intros H1 H2. rewrite N.eqb_eq. unfold alow_c, is_upper_ascii. destruct (65 <=? c) eqn:A; destruct (c <=? 90) eqn:B; cbn [andb]; try apply N.leb_le in A; try apply N.leb_gt in A; try apply N.leb_le in B; try apply N.leb_gt in B; lia. Qed.
Lemma xml_spec s : Forall name_char s -> starts (u "xml") (lower s) = true <-> exists x m l r, s = x :: m :: l :: r /\ (x = 88 \/ x = 120) /\ (m = 77 \/ m = 109) /\ (l = 76 \/ l = 108).
Proof.
  intros H. rewrite (lower_name s H). change (u "xml") with [120; 109; 108]. destruct s as [|x [|m [|l r]]]; cbn [map starts]; rewrite ?andb_true_iff.
  - split; [discriminate|intros (? & ? & ? & ? & E & _); discriminate].
  - split; [intros [_ K]; discriminate|intros (? & ? & ? & ? & E & _); discriminate].
  - split; [intros [_ [_ K]]; discriminate|intros (? & ? & ? & ? & E & _); discriminate].
  - rewrite (N.eqb_sym 120), (N.eqb_sym 109), (N.eqb_sym 108), !alow_is by lia. split.
    + intros (A & B & C & _). exists x, m, l, r. split; [reflexivity|]. lia.
    + intros (? & ? & ? & ? & E & A & B & C). injection E as <- <- <- <-. repeat split; lia.
Qed.

Lemma target_ok c r : (c = 95 \/ letter c) -> Forall name_char r -> starts (u "xml") (lower (c :: r)) = false -> target (c :: r).
Proof.
  intros H1 H2 H3. split; [exists c, r; auto|]. intros K. apply xml_spec in K; [congruence|]. constructor; [apply start_name; exact H1|exact H2].
Qed.
Lemma take_forall p (P : N -> Prop) (H : forall c, p c = true -> P c) s : Forall P (take_while p s).
Proof. apply Forall_forall. intros c Hc. apply H. pose proof (take_while_all p s) as A. rewrite forallb_forall in A. apply A, Hc. Qed.

Lemma chop d : exists data close, (d = data ++ close)%list /\ (close = [] \/ close = [63]) /\ (close = [] -> forall r, data <> r ++ [63])%list /\
  (if ends [63] d then removelast d else d) = data.
Proof.
  destruct d as [|c d] using rev_ind.
  - exists [], []. repeat split; try tauto. intros _ r E. destruct r; discriminate.
  - clear IHd. unfold ends. rewrite rev_app_distr. cbn [rev app starts]. rewrite andb_true_r. rewrite removelast_last. destruct (63 =? c) eqn:E.
    + apply N.eqb_eq in E. subst c. exists d, [63]. repeat split; [tauto|discriminate].
    + exists (d ++ [c])%list, []. rewrite app_nil_r. repeat split; [tauto|]. intros _ r K. apply app_inj_tail in K. destruct K as [_ K]. subst c. discriminate.
Qed.
Lemma node_data (t data : str) : match data with [] => Some (t ++ [32])%list | _ => Some (t ++ [32] ++ data)%list end = Some (t ++ [32] ++ data)%list.
Proof. destruct data; reflexivity. Qed.

Lemma pi_sound content d : pi_data content = Some d -> instruction content d.
Proof.
  unfold pi_data. destruct content as [|c t]; [discriminate|]. destruct (pi_name_start c) eqn:S; [|discriminate]. cbn [negb]. apply start_spec in S.
  destruct (starts (u "xml") (lower (c :: take_while pi_name_char t))) eqn:X; [discriminate|].
  pose proof (target_ok c _ S (take_forall pi_name_char name_char (fun x => proj1 (name_char_spec x)) t) X) as T.
  pose proof (drop_while_app pi_name_char t) as E. set (rest := drop_while pi_name_char t) in *. set (tg := take_while pi_name_char t) in *.
  destruct rest as [|ch rest'] eqn:R.
  - intros K. injection K as <-. rewrite E, app_nil_r. change (c :: tg ++ [32])%list with ((c :: tg) ++ [32] ++ [])%list. rewrite <- (app_nil_r (c :: tg)) at 1. change (@nil N) with (@nil N ++ [] ++ [])%list at 1.
    apply Instr; auto; try discriminate; [intros _ r K; destruct r; discriminate].
  - destruct (ch =? 63) eqn:Q.
    + apply N.eqb_eq in Q. subst ch. destruct (chop (63 :: rest')) as (data & close & D & C1 & C2 & C3). rewrite C3, node_data. intros K. injection K as <-.
      rewrite E. rewrite D. change (c :: tg ++ data ++ close)%list with ((c :: tg) ++ [] ++ data ++ close)%list. change (c :: tg ++ 32 :: data)%list with ((c :: tg) ++ [32] ++ data)%list.
      apply Instr; auto; [|intros _; right; exists rest'; auto]. intros x r K. rewrite K in D. cbn [app] in D. injection D as <- _. unfold white. lia.
    + destruct (mem ch SPACE) eqn:W; [|discriminate]. destruct (chop (drop_while (fun x => mem x SPACE) rest')) as (data & close & D & C1 & C2 & C3). rewrite C3, node_data. intros K. injection K as <-.
      rewrite E. rewrite (drop_while_app (fun x => mem x SPACE) rest'), D. set (gap := take_while (fun x => mem x SPACE) rest').
      change (c :: tg ++ ch :: gap ++ data ++ close)%list with ((c :: tg) ++ (ch :: gap) ++ data ++ close)%list. change (c :: tg ++ 32 :: data)%list with ((c :: tg) ++ [32] ++ data)%list.
      apply Instr; auto; [|intros x r K|discriminate].
      * constructor; [apply white_spec; exact W|]. apply take_forall. intros x. apply white_spec.
      * rewrite K in D. cbn [app] in D. apply drop_while_head in D. intros J. apply white_spec in J. congruence.
Qed.

Lemma take_cut p (s rest : str) : forallb p s = true -> (forall c r, rest = c :: r -> p c = false) -> take_while p (s ++ rest) = s /\ drop_while p (s ++ rest) = rest.
Proof.
  intros H1 H2. induction s as [|c s IH]; cbn [app].
  - destruct rest as [|c r]; [split; reflexivity|]. cbn [take_while drop_while]. rewrite (H2 c r eq_refl). split; reflexivity.
  - cbn [forallb] in H1. apply andb_true_iff in H1. destruct H1 as [A B]. cbn [take_while drop_while]. rewrite A. destruct (IH B) as [I1 I2]. fold (take_while p (s ++ rest)) (drop_while p (s ++ rest)). rewrite I1, I2. split; reflexivity.
Qed.
Lemma chop_back (data close : str) : close = [] \/ close = [63] -> (close = [] -> forall r, data <> r ++ [63])%list -> (if ends [63] (data ++ close) then removelast (data ++ close) else (data ++ close)%list) = data.
Proof.
  intros [->| ->] H.
  - rewrite app_nil_r. destruct data as [|c d] using rev_ind; [reflexivity|]. unfold ends. rewrite rev_app_distr. cbn [rev app starts]. rewrite andb_true_r. destruct (63 =? c) eqn:E; [|reflexivity].
    apply N.eqb_eq in E. subst. exfalso. apply (H eq_refl d). reflexivity.
  - unfold ends. rewrite rev_app_distr. cbn. apply removelast_last.
Qed.
Lemma Forall_forallb p (P : N -> Prop) (H : forall c, P c -> p c = true) s : Forall P s -> forallb p s = true.
Proof. intros F. apply forallb_forall. intros c Hc. apply H. rewrite Forall_forall in F. apply F, Hc. Qed.
Lemma pi_complete content d : instruction content d -> pi_data content = Some d.
Proof.
  intros [t gap data close ((c & r & Et & C & R) & NX) G W C1 C2 C3]. subst t. cbn [app]. unfold pi_data. rewrite (proj2 (start_spec c) C). cbn [negb].
  assert (N1 : forall x y, (gap ++ data ++ close = x :: y)%list -> pi_name_char x = false).
  { intros x y E. destruct gap as [|g gap]; cbn in E.
    - destruct (C3 eq_refl) as [K|(z & K)]; rewrite K in E; [discriminate|]. injection E as <- _. reflexivity.
    - injection E as <- _. inversion G; subst. apply white_not_name. assumption. }
  destruct (take_cut pi_name_char r (gap ++ data ++ close)%list (Forall_forallb _ _ (fun x => proj2 (name_char_spec x)) r R) N1) as [T1 T2]. rewrite T1, T2.
  destruct (starts (u "xml") (lower (c :: r))) eqn:X.
  { exfalso. apply NX. apply xml_spec in X; [exact X|]. constructor; [apply start_name; exact C|exact R]. }
  destruct gap as [|g gap].
  - cbn [app]. destruct (C3 eq_refl) as [K|(z & K)].
    + rewrite K. apply app_eq_nil in K. destruct K as [-> _]. reflexivity.
    + pose proof (chop_back data close C1 C2) as CB. rewrite K in *. change (63 =? 63) with true. cbn match. rewrite CB. destruct data; reflexivity.
  - inversion G; subst. cbn [app]. destruct (g =? 63) eqn:Q; [apply N.eqb_eq in Q; subst; exfalso; match goal with H : white 63 |- _ => unfold white in H; lia end|].
    rewrite (proj2 (white_spec g)) by assumption.
    assert (N2 : drop_while (fun x => mem x SPACE) (gap ++ data ++ close)%list = (data ++ close)%list).
    { apply (take_cut (fun x => mem x SPACE)); [eapply Forall_forallb; [|eassumption]; intros x; apply white_spec|]. intros x y E. destruct (mem x SPACE) eqn:M; [|reflexivity]. apply white_spec in M. exfalso.
      destruct data as [|z data]; cbn in E; [destruct C1 as [-> | ->]; [discriminate|]; injection E as <- _; unfold white in M; lia|]. injection E as -> _. apply (W x data eq_refl), M. }
    rewrite N2, (chop_back data close C1 C2). destruct data; reflexivity.
Qed.

(* cleaning distributes *)
Lemma normalized_app a s r : ~ In 13 a -> normalized s r -> normalized (a ++ s) (a ++ r)%list.
Proof. intros H N. induction a as [|c a IH]; [exact N|]. cbn [app]. constructor; [intros ->; apply H; left; reflexivity|]. apply IH. intros K. apply H. right. exact K. Qed.
Lemma newlines_app b (a s : str) : (In 13 (a ++ s)%list -> b = true) -> ~ In 13 a -> newlines b (a ++ s)%list = (a ++ newlines b s)%list.
Proof.
  intros H N. eapply normalized_fun; [|apply newlines_normal; exact H]. apply normalized_app; [exact N|]. apply newlines_normal. intros K. apply H. apply in_or_app. right. exact K.
Qed.
Lemma newlines_no_cr b s : ~ In 13 s -> newlines b s = s.
Proof. intros H. unfold newlines. destruct (mem 13 s) eqn:M; [apply mem_In in M; contradiction|]. rewrite andb_false_r. reflexivity. Qed.
Lemma nulls_no b r s : ~ In 0 s -> nulls b r s = s.
Proof. intros H. unfold nulls. destruct (mem 0 s) eqn:M; [apply mem_In in M; contradiction|]. rewrite andb_false_r. reflexivity. Qed.
Definition fffd (c : N) : N := if c =? 0 then 65533 else c.
Lemma nulls_map b s : (In 0 s -> b = true) -> nulls b [65533] s = map fffd s.
Proof. intros H. rewrite (nulls_flat b [65533] s H). clear. induction s as [|c s IH]; [reflexivity|]. cbn [flat_map map]. rewrite IH. unfold fffd. destruct (c =? 0); reflexivity. Qed.
Lemma nulls_drop b s : (In 0 s -> b = true) -> nulls b [] s = filter (fun c => negb (c =? 0)) s.
Proof. intros H. rewrite (nulls_flat b [] s H). clear. induction s as [|c s IH]; [reflexivity|]. cbn [flat_map filter]. rewrite IH. destruct (c =? 0); reflexivity. Qed.
Lemma normalized_incl s r : normalized s r -> forall c, In c r -> c = 10 \/ In c s.
Proof. induction 1; intros x; cbn [In]; intros K; [tauto| | |]; destruct K as [<-|K]; try tauto; destruct (IHnormalized _ K); tauto. Qed.
Lemma normalized_null s r : normalized s r -> In 0 r -> In 0 s.
Proof. intros H K. destruct (normalized_incl s r H 0 K); [discriminate|assumption]. Qed.
Lemma clean_pi_spec hc hn s : (In 13 s -> hc = true) -> (In 0 s -> hn = true) -> exists r, normalized s r /\ clean_pi hc hn s = map fffd r.
Proof.
  intros H1 H2. exists (newlines hc s). split; [apply newlines_normal; exact H1|]. unfold clean_pi. apply nulls_map. intros K. apply H2. eapply normalized_null; [apply newlines_normal; exact H1|exact K].
Qed.
Lemma fffd_nz s c : In c (map fffd s) -> c <> 0.
Proof. rewrite in_map_iff. intros (x & <- & _). unfold fffd. destruct (x =? 0) eqn:E; [discriminate|]. apply N.eqb_neq, E. Qed.
Lemma fffd_cr s : ~ In 13 s -> ~ In 13 (map fffd s).
Proof. intros H K. apply in_map_iff in K. destruct K as (x & E & K). unfold fffd in E. destruct (x =? 0) eqn:Z; [discriminate|]. subst. contradiction. Qed.
Lemma clean_pi_clean hc hn s c : (In 13 s -> hc = true) -> (In 0 s -> hn = true) -> In c (clean_pi hc hn s) -> c <> 13 /\ c <> 0.
Proof.
  intros H1 H2 K. destruct (clean_pi_spec hc hn s H1 H2) as (r & N & E). rewrite E in K. split; [|eapply fffd_nz; exact K]. intros ->. revert K. apply fffd_cr. eapply normalized_no_cr, N.
Qed.
Lemma name_plain s : Forall name_char s -> ~ In 13 s /\ ~ In 0 s.
Proof. intros F. rewrite Forall_forall in F. split; intros K; specialize (F _ K); unfold name_char, letter in F; lia. Qed.
Lemma target_name t : target t -> Forall name_char t.
Proof. intros [(c & r & -> & C & R) _]. constructor; [apply start_name; exact C|exact R]. Qed.
Lemma fffd_name s : Forall name_char s -> map fffd s = s.
Proof. intros F. induction F as [|c s H _ IH]; [reflexivity|]. cbn [map]. rewrite IH. unfold fffd. destruct (c =? 0) eqn:E; [|reflexivity]. apply N.eqb_eq in E. subst. unfold name_char, letter in H. lia. Qed.

Lemma gt_id d : ~ In 62 d -> serialize_pi_data d = d.
Proof.
  unfold serialize_pi_data, replace_char. induction d as [|c d IH]; intros H; [reflexivity|]. cbn [flat_map]. destruct (c =? 62) eqn:E; [apply N.eqb_eq in E; subst; exfalso; apply H; left; reflexivity|].
  cbn [app]. f_equal. apply IH. intros K. apply H. right. exact K.
Qed.

Lemma read_pi_again hc hn content d hc' hn' : (In 13 content -> hc = true) -> (In 0 content -> hn = true) -> ~ In 62 content ->
  read_pi hc hn content = Some d -> read_pi hc' hn' (serialize_pi_data d ++ [63])%list = Some d /\ serialize_pi_data d = d.
Proof.
  intros HC HN HG. unfold read_pi. destruct (pi_data content) as [d0|] eqn:E; [|discriminate]. cbn [option_map]. intros K. injection K as K. apply pi_sound in E. destruct E as [t gap data close T G W C1 C2 C3].
  pose proof (target_name t T) as TN. destruct (name_plain t TN) as [T13 T0].
  assert (I : forall c, In c data -> In c (t ++ gap ++ data ++ close)%list) by (intros c Hc; rewrite !in_app_iff; tauto).
  assert (D13 : In 13 data -> hc = true) by auto. assert (D0 : In 0 data -> hn = true) by auto.
  assert (CL : clean_pi hc hn (t ++ [32] ++ data)%list = (t ++ [32] ++ clean_pi hc hn data)%list).
  { unfold clean_pi. rewrite app_assoc. rewrite newlines_app.
    - rewrite !nulls_map.
      + rewrite !map_app, (fffd_name t TN). rewrite <- app_assoc. reflexivity.
      + intros J. apply D0. eapply normalized_null; [apply newlines_normal; exact D13|exact J].
      + intros J. rewrite !in_app_iff in J. destruct J as [[J|[J|[]]]|J]; [contradiction|discriminate|]. apply D0. eapply normalized_null; [apply newlines_normal; exact D13|exact J].
    - intros J. rewrite !in_app_iff in J. destruct J as [[J|[J|[]]]|J]; [contradiction|discriminate|]. auto.
    - rewrite in_app_iff. intros [J|[J|[]]]; [contradiction|discriminate]. }
  rewrite CL in K. set (data' := clean_pi hc hn data) in *. subst d.
  assert (P : forall c, In c data' -> c <> 13 /\ c <> 0) by (intros c; apply clean_pi_clean; assumption).
  assert (G62 : ~ In 62 (t ++ [32] ++ data')%list).
  { rewrite !in_app_iff. intros [J|[[J|[]]|J]]; [|discriminate|].
    - apply HG. rewrite !in_app_iff. tauto.
    - unfold data' in J. destruct (clean_pi_spec hc hn data D13 D0) as (r & Nr & Er). rewrite Er in J. apply in_map_iff in J. destruct J as (x & X & J). unfold fffd in X. destruct (x =? 0); [discriminate|]. subst x. destruct (normalized_incl _ _ Nr _ J) as [J'|J']; [discriminate|]. apply HG, I, J'. }
  split; [|apply gt_id; exact G62]. rewrite (gt_id _ G62). rewrite <- !app_assoc.
  assert (E2 : pi_data (t ++ [32] ++ data' ++ [63])%list = Some (t ++ [32] ++ data')%list).
  { apply pi_complete. apply Instr; auto; try discriminate.
    - constructor; [unfold white; tauto|constructor].
    - intros c r Ed Wc. unfold data' in Ed. destruct (clean_pi_spec hc hn data D13 D0) as (q & Nq & Eq). rewrite Eq in Ed. destruct Nq as [|s q Nq|s q X Nq|x s q X Nq]; cbn in Ed; try discriminate.
      + apply (W 13 _ eq_refl). unfold white. tauto.
      + apply (W 13 _ eq_refl). unfold white. tauto.
      + injection Ed as Ec _. apply (W x _ eq_refl). unfold fffd in Ec. destruct (x =? 0); [subst c; unfold white in Wc; lia|]. subst x. exact Wc. }
  rewrite E2. cbn [option_map]. f_equal. unfold clean_pi.
  assert (P2 : forall c, In c (t ++ [32] ++ data')%list -> c <> 13 /\ c <> 0).
  { intros c. rewrite !in_app_iff. intros [J|[[J|[]]|J]]; [|subst; split; discriminate|apply P, J]. split; intros ->; contradiction. }
  rewrite newlines_no_cr by (intros J; apply P2 in J; tauto). apply nulls_no. intros J. apply P2 in J. tauto.
Qed.
