(* Proofs: :nth-child(e) and :nth-of-type(e) end to end. *)
From Verif Require Import Str StrFacts SerializerModel SanModel SanFacts DomModel DomSpec UrlListProofs SelModel SelSpec SelNodeProofs SelSibProofs SelMatchProofs SelParseProofs SelFinal SelTextSpec SelTextProofs SelEraseProofs SelApiProofs.
From Coq Require Import Lia ZArith ZifyBool ZifyN ZifyNat.
Open Scope nat_scope.

Lemma balanced_free s : (forall c, In c s -> c <> 40%N /\ c <> 41%N) -> balanced s.
Proof.
  unfold balanced. induction s as [|c s IH]; intros H; [reflexivity|]. cbn [balanced_from]. destruct (H c) as [H1 H2]; [left; reflexivity|]. apply N.eqb_neq in H1, H2. rewrite H1, H2. apply IH. intros d Hd. apply H. right. exact Hd.
Qed.
Definition edge (c : N) : Prop := is_space c = false.
Lemma notation_shape e a b : nth_notation e a b -> (forall c, In c e -> c <> 40%N /\ c <> 41%N) /\ (exists x t, e = x :: t /\ edge x) /\ (exists y t, rev e = y :: t /\ edge y).
Proof.
  assert (DG : forall d, digits d -> forall c, In c d -> (c <> 40%N /\ c <> 41%N) /\ edge c).
  { unfold digits. intros d D c Hc. rewrite forallb_forall in D. specialize (D c Hc). split; [unfold is_digit_ascii in D; lia|apply digit_not_space; exact D]. }
  assert (SG : forall s m, opt_sign s m -> forall c, In c s -> (c <> 40%N /\ c <> 41%N) /\ edge c).
  { intros s m [ | s' m' [ | ]] c Hc; [destruct Hc| |]; (destruct Hc as [<- | []]; split; [split; discriminate|vm_compute; reflexivity]). }
  assert (DL : forall d, digits d -> d <> [] -> forall l, exists y t, rev (l ++ d) = y :: t /\ edge y).
  { intros d D Nd l. rewrite rev_app_distr. destruct (rev d) as [|y t] eqn:R; [apply (f_equal (@rev N)) in R; rewrite rev_involutive in R; contradiction|]. exists y. eexists. split; [reflexivity|]. apply (DG d D). apply in_rev. rewrite R. left. reflexivity. }
  assert (FS : forall s m d r, opt_sign s m -> digits d -> (exists x t, r = x :: t /\ edge x) -> exists x t, (s ++ d ++ r)%list = x :: t /\ edge x).
  { intros s m d r Hs Hd [x [t [-> Hx]]]. destruct s as [|c s]; [|exists c; eexists; split; [reflexivity|]; apply (SG _ _ Hs); left; reflexivity].
    destruct d as [|c d]; [exists x, t; split; [reflexivity|exact Hx]|]. exists c. eexists. split; [reflexivity|]. apply (DG _ Hd). left. reflexivity. }
  assert (EN : edge 110%N) by (vm_compute; reflexivity).
  intros [ | | s m d S D N | s m d S D | s1 m1 d1 n1 s2 m2 n2 d2 S1 D1 S2 D2 N2].
  - split; [intros c [<- | [<- | [<- | []]]]; split; discriminate|]. split; do 2 eexists; (split; [reflexivity|vm_compute; reflexivity]).
  - split; [intros c [<- | [<- | [<- | [<- | []]]]]; split; discriminate|]. split; do 2 eexists; (split; [reflexivity|vm_compute; reflexivity]).
  - split; [intros c Hc; apply in_app_or in Hc; destruct Hc as [Hc | Hc]; [apply (SG _ _ S c Hc)|apply (DG _ D c Hc)]|]. split; [|apply DL; assumption].
    destruct s as [|c s]; [|exists c; eexists; split; [reflexivity|]; apply (SG _ _ S); left; reflexivity]. destruct d as [|c d]; [contradiction|]. exists c. eexists. split; [reflexivity|]. apply (DG _ D). left. reflexivity.
  - split; [intros c Hc; apply in_app_or in Hc; destruct Hc as [Hc | Hc]; [apply (SG _ _ S c Hc)|]; apply in_app_or in Hc; destruct Hc as [Hc | [<- | []]]; [apply (DG _ D c Hc)|split; discriminate]|].
    split; [apply (FS s m d [110%N] S D); exists 110%N, []; split; [reflexivity|exact EN]|]. rewrite app_assoc, rev_app_distr. exists 110%N. eexists. split; [reflexivity|exact EN].
  - split; [|split].
    + intros c Hc. apply in_app_or in Hc. destruct Hc as [Hc | Hc]; [apply (SG _ _ S1 c Hc)|]. apply in_app_or in Hc. destruct Hc as [Hc | Hc]; [apply (DG _ D1 c Hc)|].
      apply in_app_or in Hc. destruct Hc as [[<- | []] | Hc]; [split; discriminate|]. apply in_app_or in Hc. destruct Hc as [Hc | Hc]; [apply repeat_spec in Hc; subst c; split; discriminate|].
      apply in_app_or in Hc. destruct Hc as [Hc | Hc]; [apply (SG _ _ (os_sign _ _ S2) c Hc)|]. apply in_app_or in Hc. destruct Hc as [Hc | Hc]; [apply repeat_spec in Hc; subst c; split; discriminate|]. apply (DG _ D2 c Hc).
    + apply (FS s1 m1 d1 _ S1 D1). exists 110%N. eexists. split; [reflexivity|exact EN].
    + rewrite !app_assoc. apply DL; assumption.
Qed.
Lemma notation_argument e a b : nth_notation e a b -> argument e.
Proof.
  intros H. destruct (notation_shape e a b H) as [H1 [[x [t [E1 X]]] [y [t' [E2 Y]]]]]. split; [congruence|]. split; [apply balanced_free; exact H1|]. exact (strip_ends e x t y t' E1 E2 X Y).
Qed.
Lemma pseudo_text n e a b : ident n -> lower n <> u "not" -> nth_notation e a b -> (N.of_nat (List.length n + List.length e) < 8000)%N ->
  text_of_selector (u ":" ++ n ++ u "(" ++ e ++ u ")") 0 [[(None, Compound 0 [SPseudo (lower n) (Some e)])]].
Proof.
  intros I NN H L. set (t := (u ":" ++ n ++ u "(" ++ e ++ u ")")%list). split; [|split; [|split]].
  - rewrite <- (app_nil_r t). apply sx; [|constructor|].
    + rewrite <- (app_nil_r t). apply cx; [|constructor|cbn; lia]. apply ct_plain; [|discriminate|split; [constructor; [intros []|constructor]|cbn; lia]].
      rewrite <- (app_nil_r t). constructor; [|constructor]. apply st_pseudo_arg; [exact I|exact NN|apply (notation_argument e a b H)].
    + split; [constructor; [intros []|constructor]|cbn; lia].
  - apply (strip_ends t 58%N (n ++ u "(" ++ e ++ u ")")%list 41%N (rev (u ":" ++ n ++ u "(" ++ e))%list); [reflexivity| |vm_compute; reflexivity|vm_compute; reflexivity].
    unfold t. rewrite !app_assoc, rev_app_distr. reflexivity.
  - unfold t. rewrite !app_length. change (max_length default_limits) with 8192%N. change (List.length (u ":")) with 1. change (List.length (u "(")) with 1. change (List.length (u ")")) with 1. lia.
  - cbn. lia.
Qed.
Lemma nth_matches h over x n e a b r (want : nat -> Prop) : reached_full h -> is_element h x -> ident n -> nth_notation e a b -> (N.of_nat (List.length n + List.length e) < 8000)%N ->
  (lower n = u "nth-child" /\ want = any) \/ (lower n = u "nth-of-type" /\ want = same_name h x) ->
  matches h over x (u ":" ++ n ++ u "(" ++ e ++ u ")") = inl r -> (r = true <-> exists i, nth_among h want x i /\ an_plus_b a b i).
Proof.
  intros RF E I H L C M. assert (NN : lower n <> u "not") by (destruct C as [[-> _] | [-> _]]; discriminate).
  pose proof (pseudo_text n e a b I NN H L) as T. eapply matches_exact in M; [|exact RF|exact T| | | |exact E].
  - rewrite M. pose proof (nth_notation_ok e a b H) as PN. unfold sat. split.
    + intros [c [[<- | []] S]]. unfold sat_complex in S. cbn [ends_at] in S. destruct S as [[_ S] _]. specialize (S _ (or_introl eq_refl)). cbn [sat_simple] in S. unfold pseudo_sat in S.
      destruct C as [[C ->] | [C ->]]; rewrite C in S; repeat (destruct S as [S | S]); destruct S as [S0 S]; try discriminate S0; destruct S as [a' [b' [i [S1 [S2 S3]]]]]; rewrite PN in S1; injection S1 as <- <-; exists i; split; assumption.
    + intros [i [S2 S3]]. eexists. split; [left; reflexivity|]. unfold sat_complex. cbn [ends_at]. split; [|exact Logic.I]. split; [exact E|]. cbn [simples]. intros y [<- | []]. cbn [sat_simple]. unfold pseudo_sat.
      destruct C as [[C ->] | [C ->]]; rewrite C; [do 3 right; left|do 7 right; left]; (split; [reflexivity|]); exists a, b, i; (split; [exact PN|]); split; assumption.
  - intros c [<- | []]. reflexivity.
  - intros c [<- | []] p [].
  - intros c [<- | []]. reflexivity.
Qed.
