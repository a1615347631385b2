(* PROOFS: white space *)
From Coq Require Import Lia ZifyBool ZifyN ZifyNat.
From Verif Require Import Str StrFacts MiscModel MiscSpec.
Open Scope N_scope.

Definition solid (c : N) : bool := negb (is_html_space c).
Lemma loop_keeps s : forall b, filter solid (collapse_loop b s) = filter solid s.
Proof.
  induction s as [|c s IH]; intros b; [reflexivity|]. cbn [collapse_loop filter]. unfold solid at 2. destruct (is_html_space c) eqn:E; cbn [negb].
  - destruct b; [apply IH|]. cbn [filter]. change (solid 32) with false. apply IH.
  - cbn [filter]. unfold solid at 1. rewrite E. cbn [negb]. f_equal. apply IH.
Qed.
Lemma formatting_space c : is_html_space c = is_formatting c || (c =? 32).
Proof. unfold is_html_space, is_formatting. lia. Qed.
Lemma loop_id s : existsb is_formatting s = false -> contains (u "  ") s = false -> collapse_loop false s = s.
Proof.
  intros F. assert (G : contains (u "  ") s = false -> collapse_loop false s = s /\ (match s with c :: _ => c <> 32 | [] => True end -> collapse_loop true s = s)).
  2:{ intros H. exact (proj1 (G H)). }
  induction s as [|c s IH]; intros H; [split; reflexivity|]. cbn [existsb] in F. apply orb_false_iff in F as [F1 F2]. 
  assert (H2 : contains (u "  ") s = false).
  { destruct (contains (u "  ") s) eqn:Q; [|reflexivity]. apply contains_spec in Q as (a & b & ->). assert (contains (u "  ") (c :: a ++ u "  " ++ b) = true) by (apply contains_spec; exists (c :: a), b; reflexivity). congruence. }
  destruct (IH F2 H2) as [A B]. cbn [collapse_loop]. rewrite formatting_space, F1. cbn [orb]. destruct (N.eqb_spec c 32) as [->|N0].
  - split; [|intros Q; congruence]. f_equal. apply B. destruct s as [|d s]; [exact Logic.I|]. intros ->. assert (contains (u "  ") (32 :: 32 :: s) = true) by (apply contains_spec; exists [], s; reflexivity). congruence.
  - split; [f_equal; exact A|intros _; f_equal; exact A].
Qed.
Lemma collapse_is_loop s : collapse_spaces s = collapse_loop false s.
Proof.
  unfold collapse_spaces. destruct (negb (existsb is_formatting s) && negb (contains (u "  ") s)) eqn:E; [|reflexivity]. apply andb_true_iff in E as [A B]. apply negb_true_iff in A, B. symmetry. apply loop_id; assumption.
Qed.
(* no two white-space characters in a row, and the only one used is the space *)
Lemma loop_out s : forall b, (forall c, In c (collapse_loop b s) -> is_html_space c = true -> c = 32) /\
  (forall x c d y, collapse_loop b s = x ++ c :: d :: y -> is_html_space c = true -> is_html_space d = false) /\
  (b = true -> match collapse_loop b s with c :: _ => is_html_space c = false | [] => True end).
Proof.
  induction s as [|c s IH]; intros b.
  - split; [intros c []|split; [intros x c d y Q; destruct x; discriminate Q|intros; exact Logic.I]].
  - cbn [collapse_loop]. destruct (is_html_space c) eqn:E.
    + destruct (IH true) as (A & B & C). destruct b.
      * split; [exact A|]. split; [exact B|exact C].
      * split; [intros d [<-|I] Hd; [reflexivity|exact (A d I Hd)]|]. split; [|discriminate]. intros x d e y Q Hd. destruct x as [|x0 x].
        -- cbn [app] in Q. injection Q as <- Q. specialize (C eq_refl). rewrite Q in C. exact C.
        -- cbn [app] in Q. injection Q as <- Q. exact (B _ _ _ _ Q Hd).
    + destruct (IH false) as (A & B & _). split; [intros d [<-|I] Hd; [congruence|exact (A d I Hd)]|]. split; [|intros _; exact E]. intros x d e y Q Hd. destruct x as [|x0 x].
      * cbn [app] in Q. injection Q as <- Q. congruence.
      * cbn [app] in Q. injection Q as <- Q. exact (B _ _ _ _ Q Hd).
Qed.
Lemma loop_fix s : (forall c, In c s -> is_html_space c = true -> c = 32) -> (forall x c d y, s = x ++ c :: d :: y -> is_html_space c = true -> is_html_space d = false) -> collapse_loop false s = s.
Proof.
  intros A B. apply loop_id.
  - destruct (existsb is_formatting s) eqn:E; [|reflexivity]. apply existsb_exists in E as (c & I & F). assert (c = 32) by (apply A; [exact I|rewrite formatting_space, F; reflexivity]). subst c. discriminate F.
  - destruct (contains (u "  ") s) eqn:E; [|reflexivity]. apply contains_spec in E as (a & b & E). specialize (B a 32 32 b E eq_refl). discriminate B.
Qed.
Lemma loop_idem s : collapse_loop false (collapse_loop false s) = collapse_loop false s.
Proof. destruct (loop_out s false) as (A & B & _). apply loop_fix; assumption. Qed.
(* squeezed *)
Lemma loop_word w s : forall b, w <> [] -> no_space w -> collapse_loop b (w ++ s) = w ++ collapse_loop false s.
Proof.
  induction w as [|c w IH]; intros b H N0; [contradiction|]. cbn [app collapse_loop]. rewrite (N0 c (or_introl eq_refl)). f_equal. destruct w as [|d w]; [reflexivity|]. apply IH; [discriminate|]. intros x I. apply N0. right. exact I.
Qed.
Lemma loop_spaces a s : all_space a -> collapse_loop true (a ++ s) = collapse_loop true s.
Proof.
  induction a as [|c a IH]; intros H; [reflexivity|]. cbn [app collapse_loop]. rewrite (H c (or_introl eq_refl)). apply IH. intros x I. apply H. right. exact I.
Qed.
Lemma loop_run a s : a <> [] -> all_space a -> collapse_loop false (a ++ s) = 32 :: collapse_loop true s.
Proof.
  intros H A. destruct a as [|c a]; [contradiction|]. cbn [app collapse_loop]. rewrite (A c (or_introl eq_refl)). f_equal. apply loop_spaces. intros x I. apply A. right. exact I.
Qed.
Lemma loop_head_solid s : (match s with c :: _ => is_html_space c = false | [] => True end) -> collapse_loop true s = collapse_loop false s.
Proof. destruct s as [|c s]; [reflexivity|]. intros H. cbn [collapse_loop]. rewrite H. reflexivity. Qed.
Lemma forallb_In_solid w : forallb (fun c => negb (is_html_space c)) w = true <-> no_space w.
Proof. rewrite forallb_forall. unfold no_space. split; intros H c I; specialize (H c I); [apply negb_true_iff in H|rewrite H]; auto. Qed.
Lemma forallb_In_space w : forallb is_html_space w = true <-> all_space w.
Proof. rewrite forallb_forall. reflexivity. Qed.
Lemma take_solid s : exists w a r, s = w ++ a ++ r /\ no_space w /\ all_space a /\ (match r with c :: _ => is_html_space c = false | [] => True end) /\ (a = [] -> r = []).
Proof.
  exists (take_while solid s), (take_while is_html_space (drop_while solid s)), (drop_while is_html_space (drop_while solid s)).
  split; [|split; [|split; [|split]]].
  - rewrite <- drop_while_app. apply drop_while_app.
  - apply forallb_In_solid. apply take_while_all.
  - apply forallb_In_space. apply take_while_all.
  - destruct (drop_while is_html_space (drop_while solid s)) as [|c r] eqn:E; [exact Logic.I|]. exact (drop_while_head _ _ _ _ E).
  - intros T. destruct (drop_while solid s) as [|c r] eqn:E; [reflexivity|]. pose proof (drop_while_head _ _ _ _ E) as H. unfold solid in H. apply negb_false_iff in H. cbn [take_while] in T. rewrite H in T. discriminate T.
Qed.
Lemma loop_word0 w s : no_space w -> collapse_loop false (w ++ s) = w ++ collapse_loop false s.
Proof. intros H. destruct w as [|c w]; [reflexivity|]. apply loop_word; [discriminate|exact H]. Qed.
Lemma loop_squeezed n : forall s, (List.length s <= n)%nat -> squeezed s (collapse_loop false s).
Proof.
  induction n as [|n IH]; intros s L; [destruct s; [|cbn in L; lia]; apply (Q_word []); reflexivity|].
  destruct (take_solid s) as (w & a & r & -> & W & A & R & Z). destruct a as [|c a].
  - rewrite (Z eq_refl). cbn [app]. rewrite loop_word0 by exact W. cbn [collapse_loop]. rewrite !app_nil_r. apply Q_word. apply forallb_In_solid. exact W.
  - rewrite loop_word0 by exact W. rewrite loop_run by (exact A || discriminate). rewrite loop_head_solid by exact R. apply (Q_run w (c :: a) r (collapse_loop false r)); [apply forallb_In_solid; exact W|discriminate|apply forallb_In_space; exact A|exact R|].
    apply IH. rewrite !app_length in L. cbn [List.length] in L. lia.
Qed.
(* ---------- words ---------- *)
Lemma words_total n : forall s, (List.length s <= n)%nat -> exists ws, words s ws.
Proof.
  induction n as [|n IH]; intros s L; [destruct s; [|cbn in L; lia]; exists []; apply W_end; intros c []|].
  pose proof (drop_while_app is_html_space s) as Es. assert (A : all_space (take_while is_html_space s)) by (apply forallb_In_space; apply take_while_all).
  destruct (drop_while is_html_space s) as [|c r] eqn:Er; [exists []; apply W_end; rewrite Es, app_nil_r; exact A|]. assert (Hc : is_html_space c = false) by (apply (drop_while_head is_html_space s c r); exact Er).
  pose proof (drop_while_app solid r) as Eq. assert (N0 : no_space (take_while solid r)) by (apply forallb_In_solid; apply take_while_all).
  assert (Hq : match drop_while solid r with [] => True | d :: _ => is_html_space d = true end).
  { destruct (drop_while solid r) as [|d q'] eqn:E; [exact Logic.I|]. assert (H : solid d = false) by (apply (drop_while_head solid r d q'); exact E). unfold solid in H. apply negb_false_iff in H. exact H. }
  destruct (IH (drop_while solid r)) as (ws & W). { apply (f_equal (@List.length _)) in Es, Eq. rewrite !app_length in *. cbn [List.length] in *. lia. }
  exists ((c :: take_while solid r) :: ws). rewrite Es, Eq at 1. change (take_while is_html_space s ++ c :: take_while solid r ++ drop_while solid r) with (take_while is_html_space s ++ (c :: take_while solid r) ++ drop_while solid r).
  apply W_word; [exact A|discriminate| |exact Hq|exact W].
  intros x [<-|I]; [exact Hc|]. exact (N0 x I).
Qed.
Lemma words_nil ws : words [] ws -> ws = [].
Proof.
  remember [] as e eqn:E. intros H. destruct H as [s A|a w s ws' A Nw W Sp H']; [reflexivity|]. exfalso. apply app_eq_nil in E as [_ E]. apply app_eq_nil in E as [E _]. exact (Nw E).
Qed.
Lemma go_spaces p a s : forallb p a = true -> split_by_go p [] (a ++ s) = split_by_go p [] s.
Proof. induction a as [|c a IH]; intros H; [reflexivity|]. cbn [forallb app split_by_go] in *. apply andb_true_iff in H as [-> H]. exact (IH H). Qed.
Lemma go_word p w s : forall acc, forallb (fun c => negb (p c)) w = true -> split_by_go p acc (w ++ s) = split_by_go p (rev w ++ acc) s.
Proof.
  induction w as [|c w IH]; intros acc H; [reflexivity|]. cbn [forallb app split_by_go rev] in *. apply andb_true_iff in H as [H1 H]. apply negb_true_iff in H1. rewrite H1, IH by exact H. rewrite <- app_assoc. reflexivity.
Qed.
Lemma go_words p s ws : words s ws -> (forall c, In c s -> p c = is_html_space c) -> split_by_go p [] s = ws.
Proof.
  intros H. induction H as [s A|a w s ws A Nw W Sp H IH]; intros P.
  - rewrite <- (app_nil_r s). rewrite go_spaces; [reflexivity|]. rewrite forallb_forall. intros c I. rewrite (P c I). exact (A c I).
  - rewrite go_spaces by (rewrite forallb_forall; intros c I; rewrite (P c) by (apply in_or_app; left; exact I); exact (A c I)).
    rewrite go_word by (rewrite forallb_forall; intros c I; rewrite (P c) by (apply in_or_app; right; apply in_or_app; left; exact I); rewrite (W c I); reflexivity).
    rewrite app_nil_r. assert (R : rev w <> []) by (intros Q; apply Nw; rewrite <- (rev_involutive w), Q; reflexivity).
    assert (IH2 : split_by_go p [] s = ws) by (apply IH; intros c I; apply P; apply in_or_app; right; apply in_or_app; right; exact I).
    destruct s as [|c s].
    + cbn [split_by_go] in *. destruct (rev w) eqn:E; [congruence|]. rewrite <- E, rev_involutive. subst ws. reflexivity.
    + cbn [split_by_go] in *. assert (Pc : p c = true) by (rewrite (P c) by (apply in_or_app; right; apply in_or_app; right; left; reflexivity); exact Sp). rewrite Pc in *. destruct (rev w) eqn:E; [congruence|]. rewrite <- E, rev_involutive, IH2. reflexivity.
Qed.
Lemma loop_words s ws : words s ws -> exists e, (e = [] \/ e = [32]) /\ (ws = [] -> e = []) /\ collapse_loop true s = join [32] ws ++ e.
Proof.
  intros H. induction H as [s A|a w s ws A Nw W Sp H IH].
  - exists []. repeat split; [left; reflexivity|]. rewrite <- (app_nil_r s), loop_spaces by exact A. reflexivity.
  - rewrite loop_spaces by exact A. rewrite loop_word by assumption. destruct s as [|c s].
    + exists []. repeat split; [left; reflexivity|]. rewrite (words_nil _ H). cbn. rewrite !app_nil_r. reflexivity.
    + destruct IH as (e & E & Ez & IH). cbn [collapse_loop] in *. rewrite Sp in *. rewrite IH. destruct ws as [|w2 ws].
      * exists [32]. repeat split; [right; reflexivity|intros Q; discriminate Q|]. rewrite (Ez eq_refl). reflexivity.
      * exists e. split; [exact E|]. split; [intros Q; discriminate Q|]. cbn [join]. rewrite <- app_assoc. reflexivity.
Qed.
Lemma words_ok s ws : words s ws -> forall w, In w ws -> w <> [] /\ no_space w.
Proof. intros H. induction H as [s A|a w s ws A Nw W Sp H IH]; intros x I; [destruct I|]. destruct I as [<-|I]; [split; assumption|exact (IH x I)]. Qed.
Lemma words_In s ws : words s ws -> forall w c, In w ws -> In c w -> In c s.
Proof. intros H. induction H as [s A|a w s ws A Nw W Sp H IH]; intros x c I J; [destruct I|]. apply in_or_app. right. apply in_or_app. destruct I as [<-|I]; [left; exact J|right; exact (IH _ _ I J)]. Qed.
Lemma join_first ws : (forall w, In w ws -> w <> [] /\ no_space w) -> forall c t, join [32] ws = c :: t -> is_html_space c = false.
Proof.
  intros H c t Q. destruct ws as [|w ws]; [discriminate Q|]. destruct (H w (or_introl eq_refl)) as [A B]. destruct w as [|d w]; [contradiction|]. assert (d = c) as <-; [|apply B; left; reflexivity]. destruct ws; cbn [join app] in Q; injection Q; auto.
Qed.
Lemma join_last ws : (forall w, In w ws -> w <> [] /\ no_space w) -> forall c t, join [32] ws = t ++ [c] -> is_html_space c = false.
Proof.
  induction ws as [|w ws IH]; intros H c t Q; [destruct t; discriminate Q|]. destruct ws as [|w2 ws].
  - cbn [join] in Q. destruct (H w (or_introl eq_refl)) as [_ B]. apply B. rewrite Q. apply in_or_app. right. left. reflexivity.
  - change (join [32] (w :: w2 :: ws)) with (w ++ [32] ++ join [32] (w2 :: ws)) in Q.
    destruct (exists_last (l := join [32] (w2 :: ws))) as (t' & c' & E).
    { destruct (H w2 (or_intror (or_introl eq_refl))) as [A _]. destruct w2; [contradiction|]. destruct ws; discriminate. }
    rewrite E in Q. rewrite !app_assoc in Q. apply app_inj_tail in Q as [_ <-]. apply (IH (fun x I => H x (or_intror I)) c' t' E).
Qed.
Lemma drop_while_all p s t : forallb p s = true -> drop_while p (s ++ t) = drop_while p t.
Proof. induction s as [|c s IH]; intros H; [reflexivity|]. cbn [forallb app drop_while] in *. apply andb_true_iff in H as [-> H]. exact (IH H). Qed.
Lemma strip_around p a s b : forallb p a = true -> forallb p b = true -> (forall c t, s = c :: t -> p c = false) -> (forall c t, s = t ++ [c] -> p c = false) -> strip_by p (a ++ s ++ b) = s.
Proof.
  intros A B F L. unfold strip_by, lstrip_by, rstrip_by. rewrite drop_while_all by exact A. destruct s as [|c s].
  - cbn [app]. rewrite <- (app_nil_r b), drop_while_all by exact B. reflexivity.
  - cbn [app drop_while]. rewrite (F c s eq_refl). change (c :: s ++ b) with ((c :: s) ++ b). rewrite rev_app_distr. rewrite drop_while_all.
    + rewrite drop_while_id; [apply rev_involutive|]. intros d t E. apply (L d (rev t)). rewrite <- (rev_involutive (c :: s)), E. reflexivity.
    + rewrite forallb_forall in *. intros x I. apply B. apply in_rev. exact I.
Qed.
Lemma mem32 c : mem c (u " ") = true -> is_html_space c = true.
Proof. intros H. apply mem_In in H as [<-|[]]. reflexivity. Qed.
Lemma solid32 c : is_html_space c = false -> mem c (u " ") = false.
Proof. intros H. destruct (mem c (u " ")) eqn:E; [|reflexivity]. apply mem32 in E. congruence. Qed.
Lemma strip_loop s ws : words s ws -> strip_chars (u " ") (collapse_loop false s) = join [32] ws.
Proof.
  intros H. pose proof (words_ok _ _ H) as OK. destruct (loop_words _ _ H) as (e & Ee & _ & Q).
  assert (E2 : exists a, (a = [] \/ a = [32]) /\ collapse_loop false s = a ++ join [32] ws ++ e).
  { destruct s as [|c s]; [exists []; rewrite <- Q; split; [left; reflexivity|reflexivity]|]. cbn [collapse_loop] in *. destruct (is_html_space c); [exists [32]|exists []]; (split; [auto|]); rewrite <- Q; reflexivity. }
  destruct E2 as (a & Ea & ->). unfold strip_chars. apply strip_around.
  - destruct Ea as [-> | ->]; reflexivity.
  - destruct Ee as [-> | ->]; reflexivity.
  - intros c t R. apply solid32. exact (join_first _ OK _ _ R).
  - intros c t R. apply solid32. exact (join_last _ OK _ _ R).
Qed.
Lemma collapse_html_words s ws : words s ws -> (In 11 s \/ forall c, In c s -> is_space c = true -> is_html_space c = true) -> collapse_html s = join [32] ws.
Proof.
  intros H C. unfold collapse_html. destruct s as [|c s].
  - rewrite (words_nil _ H). reflexivity.
  - destruct (mem 11 (c :: s)) eqn:M; [apply strip_loop; exact H|]. change (u " ") with [32]. f_equal. apply go_words; [exact H|]. intros d I. destruct C as [C|C].
    + apply mem_In in C. congruence.
    + destruct (is_html_space d) eqn:E.
      * clear - E. unfold is_html_space in E. assert (d = 9 \/ d = 10 \/ d = 12 \/ d = 13 \/ d = 32) as [-> | [-> | [-> | [-> | ->]]]] by lia; vm_compute; reflexivity.
      * destruct (is_space d) eqn:E2; [|reflexivity]. rewrite (C d I E2) in E. discriminate E.
Qed.
(* ---------- format_loop ---------- *)
Lemma format_keeps s : forall a b, filter solid (format_loop a b s) = filter solid s.
Proof.
  induction s as [|c s IH]; intros a b; [reflexivity|]. cbn [format_loop filter]. unfold solid at 2. rewrite formatting_space. destruct (N.eqb_spec c 32) as [->|N0].
  - rewrite orb_true_r. cbn [negb]. destruct a; [destruct b|]; cbn [filter]; change (solid 32) with false; cbv iota; apply IH.
  - destruct (is_formatting c) eqn:E; cbn [orb negb].
    + destruct a; cbn [filter]; change (solid 32) with false; cbv iota; apply IH.
    + cbn [filter]. unfold solid at 1. rewrite formatting_space, E. destruct (N.eqb_spec c 32); [contradiction|]. cbn [orb negb]. f_equal. apply IH.
Qed.
Lemma format_clean s : forall a b c, In c (format_loop a b s) -> is_formatting c = false.
Proof.
  induction s as [|d s IH]; intros a b c I; [destruct I|]. cbn [format_loop] in I. destruct (N.eqb_spec d 32) as [->|N0].
  - destruct a; [destruct b|]; try (destruct I as [<-|I]; [reflexivity|]); exact (IH _ _ _ I).
  - destruct (is_formatting d) eqn:E.
    + destruct a; try (destruct I as [<-|I]; [reflexivity|]); exact (IH _ _ _ I).
    + destruct I as [<-|I]; [exact E|exact (IH _ _ _ I)].
Qed.
Lemma filter_skip1 s : starts (u " ") s = true -> filter solid (skipn 1 s) = filter solid s.
Proof. destruct s as [|c s]; [discriminate|]. cbn [starts u skipn filter]. change (u " ") with [32]. cbn [starts]. intros H. assert (c = 32) as -> by lia. reflexivity. Qed.
Lemma ends_last s : ends (u " ") s = true -> s = removelast s ++ [32].
Proof.
  intros H. destruct (@exists_last _ s) as (t & c & ->); [intros ->; discriminate H|]. unfold ends in H. rewrite rev_app_distr in H. change (rev (u " ")) with [32] in H. cbn [rev app starts] in H. assert (c = 32) as -> by lia. rewrite removelast_last. reflexivity.
Qed.
Lemma filter_last s : ends (u " ") s = true -> filter solid (removelast s) = filter solid s.
Proof. intros H. rewrite (ends_last s H) at 2. rewrite filter_app. cbn [filter]. change (solid 32) with false. cbv iota. symmetry. apply app_nil_r. Qed.
Lemma normalize_keeps s : filter solid (normalize_formatting s) = filter solid s.
Proof.
  unfold normalize_formatting. destruct s as [|c s]; [reflexivity|]. destruct (negb (existsb is_formatting _)); [reflexivity|]. cbv zeta. remember (c :: s) as z eqn:Eq. clear Eq s.
  assert (G : filter solid (if is_formatting c && starts (u " ") (format_loop false false z) then skipn 1 (format_loop false false z) else format_loop false false z) = filter solid z).
  { destruct (is_formatting c && starts (u " ") (format_loop false false z)) eqn:K; [apply andb_true_iff in K as [_ K]; rewrite filter_skip1 by exact K|]; apply format_keeps. }
  destruct (_ && ends _ _) eqn:K; [apply andb_true_iff in K as [_ K]; rewrite filter_last by exact K|]; exact G.
Qed.
Lemma removelast_In {A} (l : list A) x : In x (removelast l) -> In x l.
Proof. induction l as [|y l IH]; [intros []|]. cbn [removelast]. destruct l as [|z l]; [intros []|]. intros [<-|I]; [left; reflexivity|right; exact (IH I)]. Qed.
Lemma normalize_clean s c : In c (normalize_formatting s) -> is_formatting c = false.
Proof.
  unfold normalize_formatting. destruct s as [|d s]; [intros []|]. remember (d :: s) as z eqn:Eq. clear Eq s. destruct (existsb is_formatting z) eqn:X.
  - cbn [negb]. cbv zeta. intros I. assert (I2 : In c (format_loop false false z)); [|exact (format_clean _ _ _ _ I2)].
    assert (G : In c (if is_formatting d && starts (u " ") (format_loop false false z) then skipn 1 (format_loop false false z) else format_loop false false z)) by (destruct (_ && ends _ _) in I; [apply removelast_In|]; exact I).
    destruct (_ && starts _ _) in G; [|exact G]. rewrite <- (firstn_skipn 1). apply in_or_app. right. exact G.
  - cbn [negb]. intros I. destruct (is_formatting c) eqn:F; [|reflexivity]. assert (existsb is_formatting z = true) by (apply existsb_exists; exists c; split; assumption). congruence.
Qed.
Lemma normalize_idem s : normalize_formatting (normalize_formatting s) = normalize_formatting s.
Proof.
  pose proof (normalize_clean s) as C. unfold normalize_formatting at 1. destruct (normalize_formatting s) as [|c t]; [reflexivity|]. destruct (existsb is_formatting (c :: t)) eqn:X; [|reflexivity]. apply existsb_exists in X as (d & I & F). rewrite (C d I) in F. discriminate F.
Qed.
(* collapse_html is idempotent on every text *)
Lemma join_In ws c : In c (join [32] ws) -> c = 32 \/ exists w, In w ws /\ In c w.
Proof.
  induction ws as [|w ws IH]; intros I; [destruct I|]. destruct ws as [|w2 ws]; [right; exists w; split; [left; reflexivity|exact I]|]. change (join [32] (w :: w2 :: ws)) with (w ++ [32] ++ join [32] (w2 :: ws)) in I. apply in_app_or in I as [I|I]; [right; exists w; split; [left; reflexivity|exact I]|]. cbn [app] in I. destruct I as [<-|I]; [left; reflexivity|]. destruct (IH I) as [->|(w' & J & K)]; [left; reflexivity|right; exists w'; split; [right; exact J|exact K]].
Qed.
Lemma words_space s ws : words s ws -> words (32 :: s) ws.
Proof.
  intros H. destruct H as [s A|a w s ws A Nw W Sp H]; [apply W_end; intros c [<-|I]; [reflexivity|exact (A c I)]|]. change (32 :: a ++ w ++ s) with ((32 :: a) ++ w ++ s). apply W_word; try assumption. intros c [<-|I]; [reflexivity|exact (A c I)].
Qed.
Lemma words_join ws : (forall w, In w ws -> w <> [] /\ no_space w) -> words (join [32] ws) ws.
Proof.
  induction ws as [|w ws IH]; intros H; [apply W_end; intros c []|]. destruct (H w (or_introl eq_refl)) as [A B]. destruct ws as [|w2 ws].
  - cbn [join]. rewrite <- (app_nil_r w) at 1. apply (W_word [] w [] []); try assumption; [intros c []|exact Logic.I|apply W_end; intros c []].
  - change (join [32] (w :: w2 :: ws)) with ([] ++ w ++ ([32] ++ join [32] (w2 :: ws))). apply W_word; try assumption; [intros c []|reflexivity|].
    apply words_space. apply IH. intros x I. apply H. right. exact I.
Qed.
Lemma words_unique s ws1 ws2 : words s ws1 -> words s ws2 -> ws1 = ws2.
Proof. intros A B. rewrite <- (go_words is_html_space _ _ A), <- (go_words is_html_space _ _ B); reflexivity. Qed.

(* ---------- format_loop, exactly ---------- *)
Lemma formatting_iff c : is_formatting c = true <-> formatting c.
Proof. unfold is_formatting, formatting. lia. Qed.
Lemma fl_word w s : forall a b, w <> [] -> no_space w -> format_loop a b (w ++ s) = w ++ format_loop false false s.
Proof.
  induction w as [|c w IH]; intros a b H N0; [contradiction|]. cbn [app format_loop]. pose proof (N0 c (or_introl eq_refl)) as E. rewrite formatting_space in E. apply orb_false_iff in E as [E1 E2]. rewrite E1, E2. f_equal.
  destruct w as [|d w]; [reflexivity|]. apply IH; [discriminate|]. intros x I. apply N0. right. exact I.
Qed.
Lemma fl_word0 w s : no_space w -> format_loop false false (w ++ s) = w ++ format_loop false false s.
Proof. destruct w as [|c w]; [reflexivity|]. intros H. apply fl_word; [discriminate|exact H]. Qed.
Lemma fl_skip a s : all_space a -> format_loop true true (a ++ s) = format_loop true true s.
Proof.
  induction a as [|c a IH]; intros H; [reflexivity|]. cbn [app format_loop]. pose proof (H c (or_introl eq_refl)) as E. rewrite formatting_space in E.
  assert (R : format_loop true true (a ++ s) = format_loop true true s) by (apply IH; intros x I; apply H; right; exact I).
  destruct (c =? 32); [exact R|]. rewrite orb_false_r in E. rewrite E. exact R.
Qed.
Lemma fl_spaces sp s : (forall c, In c sp -> c = 32) -> format_loop true false (sp ++ s) = sp ++ format_loop true false s.
Proof.
  induction sp as [|c sp IH]; intros H; [reflexivity|]. rewrite (H c (or_introl eq_refl)). cbn [app format_loop]. change (32 =? 32) with true. cbn iota. f_equal. apply IH. intros x I. apply H. right. exact I.
Qed.
Lemma fl_head s a b : (match s with c :: _ => is_html_space c = false | [] => True end) -> format_loop a b s = format_loop false false s.
Proof.
  destruct s as [|c s]; [reflexivity|]. intros E. rewrite formatting_space in E. apply orb_false_iff in E as [E1 E2]. cbn [format_loop]. rewrite E1, E2. reflexivity.
Qed.
Lemma space_split a : all_space a -> exists sp rest, a = sp ++ rest /\ (forall c, In c sp -> c = 32) /\ (rest = [] \/ exists f r, rest = f :: r /\ formatting f /\ all_space r).
Proof.
  induction a as [|c a IH]; intros H; [exists [], []; split; [reflexivity|split; [intros c []|left; reflexivity]]|].
  pose proof (H c (or_introl eq_refl)) as E. assert (Ha : all_space a) by (intros x I; apply H; right; exact I). rewrite formatting_space in E. destruct (is_formatting c) eqn:F.
  - exists [], (c :: a). split; [reflexivity|split; [intros x []|right]]. exists c, a. split; [reflexivity|split; [apply formatting_iff; exact F|exact Ha]].
  - cbn [orb] in E. apply N.eqb_eq in E. subst c. destruct (IH Ha) as (sp & rest & -> & A & B). exists (32 :: sp), rest. split; [reflexivity|split; [|exact B]]. intros x [<-|I]; [reflexivity|exact (A x I)].
Qed.
Lemma loop_formatted n : forall s, (List.length s <= n)%nat -> formatted s (format_loop false false s).
Proof.
  induction n as [|n IH]; intros s L; [destruct s; [|cbn in L; lia]; apply (F_word []); intros c []|].
  destruct (take_solid s) as (w & a & r & -> & W & A & R & Z). destruct a as [|c0 a0]; [rewrite (Z eq_refl); cbn [app]; rewrite fl_word0 by exact W; cbn [format_loop]; rewrite !app_nil_r; apply F_word; exact W|].
  rewrite fl_word0 by exact W. assert (IHr : formatted r (format_loop false false r)) by (apply IH; rewrite !app_length in L; cbn [List.length] in L; lia). remember (c0 :: a0) as a eqn:Ea. assert (Na : a <> []) by (rewrite Ea; discriminate). clear Ea c0 a0 Z L IH.
  destruct (space_split a A) as (sp & rest & -> & S1 & [->|(f & q & -> & F1 & F2)]).
  - rewrite app_nil_r in *. replace (format_loop false false (sp ++ r)) with (sp ++ format_loop false false r); [apply F_spaces; assumption|].
    destruct sp as [|c sp]; [contradiction|]. rewrite (S1 c (or_introl eq_refl)). cbn [app format_loop]. change (32 =? 32) with true. cbn iota. rewrite fl_spaces by (intros x I; apply S1; right; exact I). rewrite (fl_head r true false R). reflexivity.
  - rewrite <- app_assoc. cbn [app]. assert (Ff : is_formatting f = true) by (apply formatting_iff; exact F1). assert (F32 : (f =? 32) = false) by (unfold formatting in F1; lia).
    replace (format_loop false false (sp ++ f :: q ++ r)) with ((match sp with [] => u " " | _ => sp end) ++ format_loop false false r); [apply F_run; assumption|].
    destruct sp as [|c sp].
    + cbn [app format_loop]. rewrite F32, Ff. rewrite fl_skip by exact F2. rewrite (fl_head r true true R). reflexivity.
    + rewrite (S1 c (or_introl eq_refl)). cbn [app format_loop]. change (32 =? 32) with true. cbn iota. rewrite fl_spaces by (intros x I; apply S1; right; exact I). cbn [format_loop]. rewrite F32, Ff. rewrite fl_skip by exact F2. rewrite (fl_head r true true R). reflexivity.
Qed.
Lemma loop_plain s : existsb is_formatting s = false -> forall a, format_loop a false s = s.
Proof.
  induction s as [|c s IH]; intros H a; [reflexivity|]. cbn [existsb] in H. apply orb_false_iff in H as [H1 H2]. cbn [format_loop]. destruct (N.eqb_spec c 32) as [->|N0]; [destruct a; f_equal; apply IH; exact H2|]. rewrite H1. f_equal. apply IH. exact H2.
Qed.
Lemma cut_back_snoc s c : cut_back (s ++ [c]) = if c =? 32 then s else s ++ [c].
Proof. unfold cut_back. rewrite rev_app_distr. cbn [rev app cut_front]. destruct (c =? 32); [apply rev_involutive|]. cbn [rev]. rewrite rev_involutive. reflexivity. Qed.
Lemma normalize_formatted s : exists r, formatted s r /\
  let r1 := match s with c :: _ => if is_formatting c then cut_front r else r | [] => r end in
  normalize_formatting s = if is_formatting (last s 0) then cut_back r1 else r1.
Proof.
  exists (format_loop false false s). split; [apply (loop_formatted (List.length s)); lia|]. cbv zeta. destruct s as [|c s]; [reflexivity|]. unfold normalize_formatting. destruct (existsb is_formatting (c :: s)) eqn:X; cbn [negb].
  - cbv zeta. set (z := format_loop false false (c :: s)). set (l := last (c :: s) 0). clearbody z l.
    assert (E1 : (if is_formatting c && starts (u " ") z then skipn 1 z else z) = if is_formatting c then cut_front z else z).
    { destruct (is_formatting c); [|reflexivity]. cbn [andb]. destruct z as [|d z]; [reflexivity|]. cbn [cut_front skipn]. change (starts (u " ") (d :: z)) with ((32 =? d) && true). rewrite andb_true_r, (N.eqb_sym 32 d). destruct (d =? 32); reflexivity. }
    rewrite E1. assert (G : forall y, (if is_formatting l && ends (u " ") y then removelast y else y) = if is_formatting l then cut_back y else y); [|apply G]. clear. intros y. destruct (is_formatting l); [|reflexivity]. cbn [andb]. clear. induction y as [|d y _] using rev_ind; [reflexivity|].
    rewrite cut_back_snoc, removelast_last. unfold ends. rewrite rev_app_distr. cbn [rev app]. change (starts (rev (u " ")) (d :: rev y)) with ((32 =? d) && true). rewrite andb_true_r, (N.eqb_sym 32 d). reflexivity.
  - rewrite (loop_plain _ X). assert (P : forall x, In x (c :: s) -> is_formatting x = false) by (intros x I; destruct (is_formatting x) eqn:F; [|reflexivity]; assert (existsb is_formatting (c :: s) = true) by (apply existsb_exists; exists x; split; assumption); congruence).
    rewrite (P c (or_introl eq_refl)). rewrite (P (last (c :: s) 0)); [reflexivity|]. clear. generalize c. induction s as [|d s IH]; intros e; [left; reflexivity|]. change (last (e :: d :: s) 0) with (last (d :: s) 0). right. apply IH.
Qed.
