(* Proofs: raw text elements and scripts *)
From Coq Require Import Wf_nat Lia ZifyBool ZifyN ZifyNat.
From Verif Require Import ListFacts Str StrFacts HtmlCharRefSpec HtmlTokSpec TokFacts RawTextSpec SerializerModel SerTreeSpec SerEscapeProofs.
Open Scope N_scope.

Lemma is_alpha_nul c : is_alpha_ascii c = true -> nul c = c /\ ws c = false /\ (c =? 47) = false /\ (c =? 62) = false /\ (c =? 45) = false /\ (c =? 60) = false /\ c <> 0.
Proof. unfold is_alpha_ascii, is_upper_ascii, is_lower_ascii, ws, nul. intros H. repeat split; try lia. destruct (N.eqb_spec c 0); lia. Qed.
Lemma ends_name_of c : ws c = true \/ c = 47 \/ c = 62 -> ends_name c = true.
Proof. unfold ws, ends_name. cbn [mem existsb]. intros [H|[->| ->]]; [lia|reflexivity|reflexivity]. Qed.

Lemma closes_app name a b : closes name a -> closes name (a ++ b)%list.
Proof. intros (x & buf & c & y & -> & H). exists x, buf, c, (y ++ b)%list. split; [|exact H]. rewrite <- app_assoc. cbn. rewrite <- app_assoc. reflexivity. Qed.
Lemma hides_app a b : hides_script_end a -> hides_script_end (a ++ b)%list.
Proof.
  intros (x & y & buf & c & d & -> & H). exists x, y, buf, c, (d ++ b)%list. split; [|exact H].
  rewrite <- !app_assoc. cbn. rewrite <- !app_assoc. reflexivity.
Qed.

Definition has_open (P : str) : Prop := exists a b, P = (a ++ u "<!--" ++ b)%list.
Lemma has_open_snoc P c : has_open P -> has_open (P ++ [c])%list.
Proof. intros (a & b & ->). exists a, (b ++ [c])%list. rewrite <- !app_assoc. reflexivity. Qed.
Definition ends_with (P x : str) : Prop := exists a, P = (a ++ x)%list.
Lemma ends_with_snoc P x c : ends_with P x -> ends_with (P ++ [c])%list (x ++ [c])%list.
Proof. intros (a & ->). exists a. rewrite <- app_assoc. reflexivity. Qed.

(* state, characters consumed but not yet emitted, all text consumed so far *)
Inductive rel : raw -> state -> str -> str -> Prop :=
| r_base b P : (b = RRawtext \/ b = RScript) -> rel b (raw_state b) [] P
| r_lt b P : ends_with P [60] -> rel b (RawLT b) [60] P
| r_open b P : ends_with P [60; 47] -> rel b (RawEndOpen b) [60; 47] P
| r_name b buf P : ends_with P (60 :: 47 :: buf) -> rel b (RawEndName b buf) (60 :: 47 :: buf) P
| r_es P : ends_with P [60; 33] -> rel RScript ScriptEscStart [] P
| r_esd P : ends_with P [60; 33; 45] -> rel RScript ScriptEscStartDash [] P
| r_esc s P : (s = ScriptEsc \/ s = ScriptEscDash \/ s = ScriptEscDashDash) -> has_open P -> rel RScript s [] P
| r_elt P : has_open P -> ends_with P [60] -> rel RScript (RawLT RScriptEsc) [60] P
| r_eopen P : has_open P -> ends_with P [60; 47] -> rel RScript (RawEndOpen RScriptEsc) [60; 47] P
| r_ename buf P : has_open P -> ends_with P (60 :: 47 :: buf) -> rel RScript (RawEndName RScriptEsc buf) (60 :: 47 :: buf) P
| r_dbl w a P : P = (a ++ 60 :: w)%list -> has_open a -> rel RScript (ScriptDblStart (alow w)) [] P.

Definition okb (b : raw) := b = RRawtext \/ b = RScript.

Definition Step sc name b st p P c rest : Prop :=
  exists e st' p', rel b st' p' (P ++ [c])%list /\ (p ++ [nul c] = e ++ p')%list /\
    run sc O name st (c :: rest) = (chars e ++ run sc O name st' rest)%list.

Lemma has_open_before P x : has_open (P ++ [60])%list -> x = P -> has_open x.
Proof.
  intros (a & b & E) ->. destruct (list_eq_dec N.eq_dec b []) as [->|Hb].
  - rewrite app_nil_r in E. change (u "<!--") with ([60;33;45] ++ [45])%list in E. rewrite app_assoc in E. apply app_inj_tail in E. destruct E as [_ E]; discriminate E.
  - destruct (exists_last Hb) as (b' & x & ->). rewrite !app_assoc in E. apply app_inj_tail in E. destruct E as [-> _]. exists a, b'. rewrite <- !app_assoc. reflexivity.
Qed.

Section S.
Variables (sc : bool) (name : str).
Local Notation step' := (Step sc name).

Lemma step_base b P c rest : okb b -> step' b (raw_state b) [] P c rest.
Proof.
  intros Hb. unfold Step. destruct (N.eq_dec c 60) as [->|Hc].
  - exists [], (RawLT b), [60]. split; [constructor; exists P; reflexivity|]. split; [reflexivity|].
    destruct Hb as [->| ->]; apply run_eat; reflexivity.
  - exists [nul c], (raw_state b), []. split; [constructor; exact Hb|]. split; [reflexivity|].
    cbn [chars map app]. apply run_out. destruct Hb as [->| ->]; cbn [raw_state step]; replace (c =? 60) with false by lia; reflexivity.
Qed.

Lemma step_esc s P c rest : s = ScriptEsc \/ s = ScriptEscDash \/ s = ScriptEscDashDash -> has_open P ->
  step' RScript s [] P c rest.
Proof.
  intros Hs HP. unfold Step. pose proof (has_open_snoc P c HP) as HP'.
  destruct (N.eq_dec c 45) as [->|H45].
  { destruct Hs as [->|[->| ->]]; [exists [45], ScriptEscDash, []|exists [45], ScriptEscDashDash, []|exists [45], ScriptEscDashDash, []];
    (split; [constructor; auto|]); (split; [reflexivity|]); cbn [chars map app]; apply run_out; reflexivity. }
  destruct (N.eq_dec c 60) as [->|H60].
  { exists [], (RawLT RScriptEsc), [60]. split; [apply r_elt; [exact HP'|exists P; reflexivity]|]. split; [reflexivity|].
    destruct Hs as [->|[->| ->]]; apply run_eat; reflexivity. }
  destruct Hs as [->|[->| ->]].
  1,2: exists [nul c], ScriptEsc, []; (split; [constructor; auto|]); (split; [reflexivity|]); cbn [chars map app]; apply run_out; cbn [step];
    replace (c =? 45) with false by lia; replace (c =? 60) with false by lia; reflexivity.
  destruct (N.eq_dec c 62) as [->|H62].
  - exists [62], ScriptData, []. split; [apply (r_base RScript); auto|]. split; [reflexivity|]. cbn [chars map app]. apply run_out. reflexivity.
  - exists [nul c], ScriptEsc, []. split; [constructor; auto|]. split; [reflexivity|]. cbn [chars map app]. apply run_out. cbn [step].
    replace (c =? 45) with false by lia. replace (c =? 60) with false by lia. replace (c =? 62) with false by lia. reflexivity.
Qed.

(* falling back to the base state after an abandoned end tag *)
Lemma step_fall b st p q P c rest : step name st c rest = Again (chars q) (raw_state b) -> okb b -> p = q -> step' b st p P c rest.
Proof.
  intros H Hb ->. destruct (step_base b P c rest Hb) as (e & st' & p' & A & B & C).
  exists (q ++ e)%list, st', p'. split; [exact A|]. split; [rewrite <- app_assoc, <- B; reflexivity|].
  rewrite (run_again _ _ _ _ _ _ _ H), C, chars_app, app_assoc. reflexivity.
Qed.
Lemma step_fall_esc st p q P c rest : step name st c rest = Again (chars q) ScriptEsc -> has_open P -> p = q -> step' RScript st p P c rest.
Proof.
  intros H HP ->. destruct (step_esc ScriptEsc P c rest) as (e & st' & p' & A & B & C); [auto|exact HP|].
  exists (q ++ e)%list, st', p'. split; [exact A|]. split; [rewrite <- app_assoc, <- B; reflexivity|].
  rewrite (run_again _ _ _ _ _ _ _ H), C, chars_app, app_assoc. reflexivity.
Qed.

Lemma step_rel b st p P c rest : okb b -> rel b st p P ->
  ~ closes name (P ++ [c])%list -> (b = RScript -> ~ hides_script_end (P ++ [c])%list) -> step' b st p P c rest.
Proof.
  intros Hb Hr Hc Hh. destruct Hr.
  - apply step_base; exact Hb.
  - (* RawLT b *)
    destruct (N.eq_dec c 47) as [->|H47].
    { exists [], (RawEndOpen b), [60;47]. split; [constructor; apply (ends_with_snoc P [60] 47 H)|]. split; [reflexivity|]. apply run_eat. reflexivity. }
    destruct Hb as [->| ->].
    { apply (step_fall RRawtext _ [60] [60]); [|left; reflexivity|reflexivity]. cbn [step]. replace (c =? 47) with false by lia. reflexivity. }
    destruct (N.eq_dec c 33) as [->|H33].
    + exists [60; 33], ScriptEscStart, []. split; [constructor; apply (ends_with_snoc P [60] 33 H)|]. split; [reflexivity|].
      rewrite (run_eatn _ _ _ _ _ [TChar 60; TChar 33] O ScriptEscStart) by reflexivity. reflexivity.
    + apply (step_fall RScript _ [60] [60]); [|right; reflexivity|reflexivity]. cbn [step]. replace (c =? 47) with false by lia. replace (c =? 33) with false by lia. reflexivity.
  - (* RawEndOpen b *)
    destruct (is_alpha_ascii c) eqn:Ha.
    + destruct (is_alpha_nul c Ha) as (N1 & N2 & N3 & N4 & _).
      exists [], (RawEndName b [c]), [60; 47; c]. split; [constructor; apply (ends_with_snoc P [60;47] c H)|]. split; [rewrite N1; reflexivity|].
      rewrite (run_again _ _ _ _ _ [] (RawEndName b [])) by (cbn [step]; rewrite Ha; reflexivity). cbn [app chars map].
      apply run_eat. cbn [step]. rewrite N2, N3, N4, Ha. reflexivity.
    + apply (step_fall b _ [60;47] [60;47]); [|exact Hb|reflexivity]. cbn [step]. rewrite Ha. reflexivity.
  - (* RawEndName b buf *)
    assert (Hno : ends_name c = true -> str_eqb (alow buf) name = false).
    { intros He. apply str_eqb_neq. intros En. apply Hc. destruct H as (a & ->). exists a, buf, c, []. rewrite <- app_assoc. cbn. rewrite <- ?app_assoc. auto. }
    destruct (is_alpha_ascii c) eqn:Ha.
    + destruct (is_alpha_nul c Ha) as (N1 & N2 & N3 & N4 & _).
      exists [], (RawEndName b (snoc buf c)), (60 :: 47 :: snoc buf c). split; [constructor; apply (ends_with_snoc P (60::47::buf) c H)|]. split; [rewrite N1; reflexivity|].
      apply run_eat. cbn [step]. rewrite N2, N3, N4, Ha. reflexivity.
    + apply (step_fall b _ (60::47::buf) (60::47::buf)); [|exact Hb|reflexivity]. cbn [step]. rewrite Ha.
      destruct (ws c) eqn:Ew. { rewrite (Hno (ends_name_of c (or_introl Ew))). rewrite !andb_false_r. reflexivity. }
      destruct (N.eqb_spec c 47) as [->|]. { rewrite (Hno eq_refl). reflexivity. }
      destruct (N.eqb_spec c 62) as [->|]. { rewrite (Hno eq_refl). reflexivity. }
      reflexivity.
  - (* ScriptEscStart *)
    destruct (N.eq_dec c 45) as [->|H45].
    + exists [45], ScriptEscStartDash, []. split; [constructor; apply (ends_with_snoc P [60;33] 45 H)|]. split; [reflexivity|]. cbn [chars map app]. apply run_out. reflexivity.
    + apply (step_fall RScript _ [] []); [|exact Hb|reflexivity]. cbn [step]. replace (c =? 45) with false by lia. reflexivity.
  - destruct (N.eq_dec c 45) as [->|H45].
    + exists [45], ScriptEscDashDash, []. split.
      { apply r_esc; [auto|]. destruct (ends_with_snoc P _ 45 H) as (a & ->). exists a, []. reflexivity. }
      split; [reflexivity|]. cbn [chars map app]. apply run_out. reflexivity.
    + apply (step_fall RScript _ [] []); [|exact Hb|reflexivity]. cbn [step]. replace (c =? 45) with false by lia. reflexivity.
  - apply step_esc; assumption.
  - (* RawLT RScriptEsc *)
    destruct (N.eq_dec c 47) as [->|H47].
    { exists [], (RawEndOpen RScriptEsc), [60;47]. split; [apply r_eopen; [apply has_open_snoc; exact H|apply (ends_with_snoc P [60] 47 H0)]|]. split; [reflexivity|]. apply run_eat. reflexivity. }
    destruct (is_alpha_ascii c) eqn:Ha.
    + destruct (is_alpha_nul c Ha) as (N1 & N2 & N3 & N4 & _).
      exists [60; c], (ScriptDblStart (alow [c])), []. split.
      { destruct H0 as (a & ->). apply (r_dbl [c] a). rewrite <- app_assoc. reflexivity. apply (has_open_before a); auto. }
      split; [rewrite N1; reflexivity|].
      rewrite (run_again _ _ _ _ _ [TChar 60] (ScriptDblStart [])) by (cbn [step]; replace (c =? 47) with false by lia; rewrite Ha; reflexivity).
      cbn [chars map app]. f_equal. apply run_out. cbn [step]. rewrite N2, N3, N4, Ha. reflexivity.
    + apply (step_fall_esc _ [60] [60]); [|exact H|reflexivity]. cbn [step]. replace (c =? 47) with false by lia. rewrite Ha. reflexivity.
  - destruct (is_alpha_ascii c) eqn:Ha.
    + destruct (is_alpha_nul c Ha) as (N1 & N2 & N3 & N4 & _).
      exists [], (RawEndName RScriptEsc [c]), [60; 47; c]. split; [apply r_ename; [apply has_open_snoc; exact H|apply (ends_with_snoc P [60;47] c H0)]|]. split; [rewrite N1; reflexivity|].
      rewrite (run_again _ _ _ _ _ [] (RawEndName RScriptEsc [])) by (cbn [step]; rewrite Ha; reflexivity). cbn [app chars map].
      apply run_eat. cbn [step]. rewrite N2, N3, N4, Ha. reflexivity.
    + apply (step_fall_esc _ [60;47] [60;47]); [|exact H|reflexivity]. cbn [step]. rewrite Ha. reflexivity.
  - assert (Hno : ends_name c = true -> str_eqb (alow buf) name = false).
    { intros He. apply str_eqb_neq. intros En. apply Hc. destruct H0 as (a & ->). exists a, buf, c, []. rewrite <- app_assoc. cbn. rewrite <- ?app_assoc. auto. }
    destruct (is_alpha_ascii c) eqn:Ha.
    + destruct (is_alpha_nul c Ha) as (N1 & N2 & N3 & N4 & _).
      exists [], (RawEndName RScriptEsc (snoc buf c)), (60 :: 47 :: snoc buf c). split; [apply r_ename; [apply has_open_snoc; exact H|apply (ends_with_snoc P (60::47::buf) c H0)]|]. split; [rewrite N1; reflexivity|].
      apply run_eat. cbn [step]. rewrite N2, N3, N4, Ha. reflexivity.
    + apply (step_fall_esc _ (60::47::buf) (60::47::buf)); [|exact H|reflexivity]. cbn [step]. rewrite Ha.
      destruct (ws c) eqn:Ew. { rewrite (Hno (ends_name_of c (or_introl Ew))). rewrite !andb_false_r. reflexivity. }
      destruct (N.eqb_spec c 47) as [->|]. { rewrite (Hno eq_refl). reflexivity. }
      destruct (N.eqb_spec c 62) as [->|]. { rewrite (Hno eq_refl). reflexivity. }
      reflexivity.
  - (* ScriptDblStart *)
    destruct (is_alpha_ascii c) eqn:Ha.
    + destruct (is_alpha_nul c Ha) as (N1 & N2 & N3 & N4 & _).
      exists [c], (ScriptDblStart (alow (w ++ [c])%list)), []. split.
      { apply (r_dbl (w ++ [c])%list a); [subst P; rewrite <- app_assoc; reflexivity|exact H0]. }
      split; [rewrite N1; reflexivity|]. cbn [chars map app]. apply run_out. cbn [step]. rewrite N2, N3, N4, Ha. unfold alow. rewrite map_app. reflexivity.
    + destruct (ws c || (c =? 47) || (c =? 62)) eqn:Ew.
      * assert (He : ends_name c = true) by (apply ends_name_of; destruct (ws c); [auto|lia]).
        assert (Hns : str_eqb (alow w) (u "script") = false).
        { apply str_eqb_neq. intros En. apply (Hh eq_refl). destruct H0 as (x & y & ->). subst P.
          exists x, y, w, c, []. split; [|auto]. rewrite <- !app_assoc. cbn [app]. reflexivity. }
        assert (Hn : nul c = c) by (unfold nul; destruct (N.eqb_spec c 0) as [->|]; [discriminate He|reflexivity]).
        exists [c], ScriptEsc, []. split; [apply r_esc; [auto|]; subst P; destruct H0 as (x & y & ->); exists x, (y ++ 60 :: w ++ [c])%list; rewrite <- !app_assoc; cbn [app]; reflexivity|].
        split; [rewrite Hn; reflexivity|]. cbn [chars map app]. apply run_out. cbn [step]. rewrite Ew, Hns. reflexivity.
      * apply (step_fall_esc _ [] []); [cbn [step]; rewrite Ew, Ha; reflexivity| |reflexivity].
        subst P. destruct H0 as (x & y & ->). exists x, (y ++ 60 :: w)%list. rewrite <- !app_assoc. reflexivity.
Qed.

Hypothesis name_alpha : forallb is_alpha_ascii name = true.
Hypothesis name_low : alow name = name.
Hypothesis name_ne : name <> [].

(* the end tag itself, from the "<" onwards *)
Lemma run_end_name r rest n : forallb is_alpha_ascii n = true ->
  forall buf, (buf ++ n = name)%list -> run sc O name (RawEndName r buf) (n ++ 62 :: rest)%list = TEnd name :: run sc O name Data rest.
Proof.
  induction n as [|c n IH]; intros Hn buf E.
  - rewrite app_nil_r in E. subst buf. cbn [app]. rewrite (run_emit _ _ _ _ _ (Tag true name []) false).
    + reflexivity.
    + cbn [step]. change (ws 62) with false. change (62 =? 47) with false. change (62 =? 62) with true. rewrite name_low, str_eqb_refl. reflexivity.
  - cbn [forallb] in Hn. apply andb_prop in Hn; destruct Hn as [Ha Hn]. destruct (is_alpha_nul c Ha) as (N1 & N2 & N3 & N4 & _).
    cbn [app]. rewrite (run_eat _ _ _ _ _ (RawEndName r (snoc buf c))) by (cbn [step]; rewrite N2, N3, N4, Ha; reflexivity).
    apply IH; [exact Hn|]. unfold snoc. rewrite <- app_assoc. exact E.
Qed.
Lemma run_end_lt r rest : run sc O name (RawLT r) (47 :: name ++ 62 :: rest)%list = TEnd name :: run sc O name Data rest.
Proof.
  rewrite (run_eat _ _ _ _ _ (RawEndOpen r)) by reflexivity.
  destruct name as [|c n] eqn:En; [congruence|]. rewrite <- En in *. pose proof name_alpha as Hn. rewrite En in Hn. cbn [forallb] in Hn. apply andb_prop in Hn; destruct Hn as [Ha _].
  rewrite En at 2. cbn [app]. rewrite (run_again _ _ _ _ _ [] (RawEndName r [])) by (cbn [step]; rewrite Ha; reflexivity). cbn [app].
  change (c :: n ++ 62 :: rest)%list with ((c :: n) ++ 62 :: rest)%list. rewrite <- En. apply run_end_name; [exact name_alpha|reflexivity].
Qed.

Lemma run_rel_end b st p P rest : okb b -> rel b st p P ->
  run sc O name st (60 :: 47 :: name ++ 62 :: rest)%list = (chars p ++ TEnd name :: run sc O name Data rest)%list.
Proof.
  intros Hb Hr.
  assert (HB : run sc O name (raw_state b) (60 :: 47 :: name ++ 62 :: rest)%list = TEnd name :: run sc O name Data rest).
  { rewrite (run_eat _ _ _ _ _ (RawLT b)) by (destruct Hb as [->| ->]; reflexivity). apply run_end_lt. }
  assert (HE : forall s, s = ScriptEsc \/ s = ScriptEscDash \/ s = ScriptEscDashDash -> run sc O name s (60 :: 47 :: name ++ 62 :: rest)%list = TEnd name :: run sc O name Data rest).
  { intros s Hs. rewrite (run_eat _ _ _ _ _ (RawLT RScriptEsc)) by (destruct Hs as [->|[->| ->]]; reflexivity). apply run_end_lt. }
  assert (HA : forall s q s', step name s 60 (47 :: name ++ 62 :: rest)%list = Again (chars q) s' ->
             run sc O name s' (60 :: 47 :: name ++ 62 :: rest)%list = TEnd name :: run sc O name Data rest ->
             run sc O name s (60 :: 47 :: name ++ 62 :: rest)%list = (chars q ++ TEnd name :: run sc O name Data rest)%list).
  { intros s q s' H1 H2. rewrite (run_again _ _ _ _ _ _ _ H1), H2. reflexivity. }
  destruct Hr.
  - exact HB.
  - apply (HA (RawLT b) [60] (raw_state b)); [destruct Hb as [->| ->]; reflexivity|exact HB].
  - apply (HA (RawEndOpen b) [60;47] (raw_state b)); [destruct Hb as [->| ->]; reflexivity|exact HB].
  - apply (HA (RawEndName b buf) (60::47::buf) (raw_state b)); [destruct Hb as [->| ->]; reflexivity|exact HB].
  - apply (HA ScriptEscStart [] (raw_state RScript)); [reflexivity|exact HB].
  - apply (HA ScriptEscStartDash [] (raw_state RScript)); [reflexivity|exact HB].
  - apply HE; assumption.
  - apply (HA (RawLT RScriptEsc) [60] ScriptEsc); [reflexivity|apply HE; auto].
  - apply (HA (RawEndOpen RScriptEsc) [60;47] ScriptEsc); [reflexivity|apply HE; auto].
  - apply (HA (RawEndName RScriptEsc buf) (60::47::buf) ScriptEsc); [reflexivity|apply HE; auto].
  - apply (HA (ScriptDblStart (alow w)) [] ScriptEsc); [reflexivity|apply HE; auto].
Qed.

Lemma run_raw b rest T : okb b -> forall st p P, rel b st p P ->
  ~ closes name (P ++ T)%list -> (b = RScript -> ~ hides_script_end (P ++ T)%list) ->
  run sc O name st (T ++ 60 :: 47 :: name ++ 62 :: rest)%list = (chars (p ++ map nul T) ++ TEnd name :: run sc O name Data rest)%list.
Proof.
  intros Hb. induction T as [|c T IH]; intros st p P Hr Hc Hh.
  - cbn [app map]. rewrite app_nil_r. apply (run_rel_end b st p P); assumption.
  - cbn [app map].
    assert (Hc1 : ~ closes name (P ++ [c])%list) by (intros X; apply Hc; change (c :: T) with ([c] ++ T)%list; rewrite app_assoc; apply closes_app; exact X).
    assert (Hh1 : b = RScript -> ~ hides_script_end (P ++ [c])%list).
    { intros E X; apply (Hh E); change (c :: T) with ([c] ++ T)%list; rewrite app_assoc; apply hides_app; exact X. }
    destruct (step_rel b st p P c (T ++ 60 :: 47 :: name ++ 62 :: rest)%list Hb Hr Hc1 Hh1) as (e & st' & p' & A & B & C).
    rewrite C. rewrite (IH st' p' (P ++ [c])%list A).
    + rewrite app_assoc, <- chars_app. f_equal. f_equal. rewrite app_assoc, <- B, <- app_assoc. reflexivity.
    + rewrite <- app_assoc. exact Hc.
    + intros E. rewrite <- app_assoc. exact (Hh E).
Qed.
End S.

(* ---------- ascii_lower is positionwise (C51) ---------- *)
Definition lowered (c d : N) : Prop := (c < 128 -> d = alow_c c) /\ (128 <= c -> 128 <= d).
Lemma ascii_lower_lowered t : Forall2 lowered t (ascii_lower t).
Proof.
  assert (HA : forall t, Forall2 lowered t (alow t)).
  { clear t. induction t as [|c t IH]; [constructor|]. constructor; [|exact IH]. split; [reflexivity|]. unfold alow_c, is_upper_ascii. intros. destruct (_ && _) eqn:E; lia. }
  unfold ascii_lower. destruct (is_ascii t) eqn:E.
  - rewrite lower_ascii by exact E. apply HA.
  - destruct (mem 304 t || mem 8490 t) eqn:E2; [apply HA|].
    apply Bool.orb_false_iff in E2. destruct E2 as [H1 H2]. apply mem_false_In in H1, H2. clear E.
    induction t as [|c t IH]; [constructor|]. cbn [lower flat_map].
    assert (Hc : exists d, lower_c c = [d] /\ lowered c d).
    { destruct (N.lt_ge_cases c 128) as [Hl|Hl].
      - exists (alow_c c). split; [apply lower_c_ascii; exact Hl|]. split; [reflexivity|lia].
      - destruct (lower_c_nonascii c Hl) as (d & A & B); [intros ->; apply H1; left; reflexivity|intros ->; apply H2; left; reflexivity|].
        exists d. split; [exact A|]. split; [lia|intros _; exact B]. }
    destruct Hc as (d & -> & Hd). cbn [app]. constructor; [exact Hd|]. apply IH; intros Hi; [apply H1|apply H2]; right; exact Hi.
Qed.

Lemma lowered_eq k c d : k < 128 -> lowered c d -> (k =? d) = (k =? alow_c c).
Proof.
  intros Hk [H1 H2]. destruct (N.lt_ge_cases c 128) as [Hl|Hl]; [rewrite H1 by exact Hl; reflexivity|].
  specialize (H2 Hl). replace (alow_c c) with c by (unfold alow_c, is_upper_ascii; destruct (_ && _) eqn:E; lia). lia.
Qed.
Lemma lowered_starts n : is_ascii n = true -> forall t l, Forall2 lowered t l -> starts n l = starts n (alow t).
Proof.
  induction n as [|k n IH]; intros Hn t l H; [reflexivity|]. cbn [is_ascii forallb] in Hn. apply andb_prop in Hn; destruct Hn as [Hk Hn].
  destruct H as [|c d t l Hcd H]; [reflexivity|]. cbn [starts alow map]. fold (alow t).
  rewrite (lowered_eq k c d) by (try exact Hcd; unfold is_ascii_char in Hk; lia). rewrite (IH Hn t l H). reflexivity.
Qed.
Lemma lowered_find n : is_ascii n = true -> forall t l, Forall2 lowered t l -> find n l = find n (alow t).
Proof.
  intros Hn t l H. induction H as [|c d t l Hcd H IH]; [reflexivity|].
  assert (Hst : starts n (d :: l) = starts n (alow (c :: t))) by (apply lowered_starts; [exact Hn|constructor; assumption]).
  cbn [alow map] in *. fold (alow t) in *. cbn [find]. rewrite Hst, IH. reflexivity.
Qed.
Lemma Forall2_skipn {A B} (R : A -> B -> Prop) n : forall l m, Forall2 R l m -> Forall2 R (skipn n l) (skipn n m).
Proof. induction n as [|n IH]; intros l m H; [exact H|]. destruct H; [constructor|]. cbn. apply IH; assumption. Qed.

(* ---------- the neutralising loop, on the remaining text ---------- *)
Fixpoint nl (fuel : nat) (needle rem out : str) (changed : bool) : option (str * str * bool) :=
  match fuel with
  | O => None
  | S k =>
    match find needle (alow rem) with
    | None => Some (out, rem, changed)
    | Some d =>
      if match nth_error rem (d + List.length needle) with None => true | Some c => space_or_tag_end c end
      then nl k needle (skipn (S d) rem) (out ++ firstn d rem ++ u "&lt;")%list true
      else nl k needle (skipn (S d) rem) out changed
    end
  end.

Lemma neutralize_loop_nl text needle : is_ascii needle = true -> needle <> [] -> forall fuel start out ch, (start <= List.length text)%nat ->
  neutralize_loop fuel (ascii_lower text) text needle start out ch =
  match nl fuel needle (skipn start text) out ch with
  | None => None
  | Some (o, r, c) => Some (o, (List.length text - List.length r)%nat, c) end.
Proof.
  intros Hn Hne. induction fuel as [|k IH]; intros start out ch Hle; [reflexivity|].
  cbn [neutralize_loop nl]. rewrite (lowered_find needle Hn (skipn start text)) by (apply Forall2_skipn, ascii_lower_lowered).
  destruct (find needle (alow (skipn start text))) as [d|] eqn:E.
  - assert (Hd : (S (start + d) <= List.length text)%nat).
    { apply find_Some in E. destruct E as (a & b & E & Hl & _). apply (f_equal (@List.length N)) in E. rewrite alow_length, skipn_length, !app_length in E.
      destruct needle; [congruence|]. cbn in E. lia. }
    assert (Eb : nth_error text (start + d + List.length needle) = nth_error (skipn start text) (d + List.length needle)).
    { rewrite nth_error_skipn. f_equal. lia. }
    rewrite Eb.
    assert (Es : skipn (S d) (skipn start text) = skipn (S (start + d)) text) by (rewrite skipn_skipn; f_equal; lia).
    assert (El : slice text start (start + d) = firstn d (skipn start text)) by (unfold slice; f_equal; lia).
    rewrite Es, El.
    destruct (match nth_error (skipn start text) (d + List.length needle) with None => true | Some c => space_or_tag_end c end); apply IH; exact Hd.
  - rewrite skipn_length. do 2 f_equal. f_equal. lia.
Qed.

(* [occ n t]: [n] occurs in the lower-cased text *)
Definition occ (n t : str) : Prop := exists a b, alow t = (a ++ n ++ b)%list.
Definition nocc (n t : str) := ~ occ n t.
Lemma nocc_amp n a b : n <> [] -> hd 0 n = 60 -> ~ In 38 n -> ~ In 59 n -> nocc n a -> nocc n b -> nocc n (a ++ u "&lt;" ++ b)%list.
Proof.
  intros Hne Hhd H38 H59 Ha Hb (p & q & E). unfold alow in E. rewrite !map_app in E. fold (alow a) (alow b) in E.
  change (map alow_c (u "&lt;")) with (38 :: u "lt" ++ [59])%list in E. cbn [app] in E.
  apply occ_split in E; [|exact H38]. destruct E as [(q' & E)|(p' & E)]; [apply Ha; exists p, q'; exact E|].
  change (u "lt" ++ [59]) with ([108; 116] ++ [59])%list in E. rewrite <- app_assoc in E. cbn [app] in E.
  change (108 :: 116 :: 59 :: alow b) with ([108; 116] ++ 59 :: alow b)%list in E.
  apply occ_split in E; [|exact H59]. destruct E as [(q' & E)|(p'' & E)]; [|apply Hb; exists p'', q; exact E].
  destruct n as [|x n]; [congruence|]. cbn in Hhd. subst x.
  destruct p' as [|? [|? [|? ?]]]; cbn in E; try discriminate E; injection E; intros; try discriminate; destruct n, q'; discriminate.
Qed.

Lemma nocc_find n t : find n (alow t) = None -> nocc n t.
Proof. intros H (a & b & E). exact (proj1 (find_None _ _) H a b E). Qed.

Section NL.
Variable n : str.
Hypothesis n_ne : n <> [].
Hypothesis n_hd : hd 0 n = 60.
Hypothesis n38 : ~ In 38 n.
Hypothesis n59 : ~ In 59 n.

(* text before the first occurrence *)
Lemma nocc_before rem d : find n (alow rem) = Some d -> nocc n (firstn d rem).
Proof.
  intros E (a & b & H). apply find_Some in E. destruct E as (x & y & E & Hl & Hmin).
  assert (Ef : alow rem = (a ++ n ++ (b ++ skipn d (alow rem)))%list).
  { rewrite <- (firstn_skipn d (alow rem)) at 1. replace (firstn d (alow rem)) with (alow (firstn d rem)) by (unfold alow; rewrite firstn_map; reflexivity).
    rewrite H, <- !app_assoc. reflexivity. }
  apply Hmin in Ef. apply (f_equal (@List.length N)) in H. rewrite alow_length, firstn_length, !app_length in H.
  destruct n; [congruence|]. cbn in H. lia.
Qed.


(* The output is: pieces without occurrences, each followed by "&lt;", then the rest. *)
Inductive pieces : str -> Prop :=
| p_nil : pieces []
| p_snoc o w : pieces o -> nocc n w -> pieces (o ++ w ++ u "&lt;")%list.

Lemma pieces_nocc o : pieces o -> forall z, nocc n z -> nocc n (o ++ z)%list.
Proof.
  induction 1 as [|o w Ho IH Hw]; intros z Hz; [exact Hz|].
  rewrite <- !app_assoc. apply IH. apply nocc_amp; assumption.
Qed.

Definition hit (rem : str) : Prop := exists a b, alow rem = (a ++ n ++ b)%list /\ match nth_error rem (List.length a + List.length n) with None => True | Some c => space_or_tag_end c = true end.

Lemma hit_after rem d : find n (alow rem) = Some d ->
  match nth_error rem (d + List.length n) with None => true | Some c => space_or_tag_end c end = false ->
  hit rem -> hit (skipn (S d) rem).
Proof.
  intros E Hb (a & b & Ea & Hh). apply find_Some in E. destruct E as (x & y & E & Hl & Hmin).
  assert (Hle : (d <= List.length a)%nat) by (eapply Hmin; exact Ea).
  destruct (Nat.eq_dec d (List.length a)) as [->|Hne].
  - destruct (nth_error rem (List.length a + List.length n)); [congruence|discriminate].
  - exists (skipn (S d) a), b. split.
    + unfold alow in *. rewrite <- skipn_map. rewrite Ea. rewrite skipn_app. replace (S d - List.length a)%nat with O by lia. reflexivity.
    + rewrite nth_error_skipn, skipn_length. replace (S d + (List.length a - S d + List.length n))%nat with (List.length a + List.length n)%nat by lia. exact Hh.
Qed.

Lemma nl_spec fuel : forall rem out ch, (List.length rem < fuel)%nat -> pieces out ->
  exists o r c, nl fuel n rem out ch = Some (o, r, c) /\ (List.length r <= List.length rem)%nat /\ (exists k, r = skipn k rem) /\  pieces o /\ nocc n r /\ (c = false -> ch = false /\ ~ hit rem).
Proof.
  induction fuel as [|f IH]; intros rem out ch Hf Hp; [lia|]. cbn [nl].
  destruct (find n (alow rem)) as [d|] eqn:E.
  - pose proof (nocc_before rem d E) as Hb.
    assert (Hl : (List.length (skipn (S d) rem) < List.length rem)%nat).
    { rewrite skipn_length. apply find_Some in E. destruct E as (x & y & E & Hl & _). apply (f_equal (@List.length N)) in E. rewrite alow_length, !app_length in E. destruct n; [congruence|]. cbn in E. lia. }
    destruct (match nth_error rem (d + List.length n) with None => true | Some c => space_or_tag_end c end) eqn:Eb.
    + destruct (IH (skipn (S d) rem) (out ++ firstn d rem ++ u "&lt;")%list true) as (o & r & c & A & B & (k & C) & D & F & G); [lia|constructor; assumption|].
      exists o, r, c. split; [exact A|]. split; [lia|]. split; [exists (S d + k)%nat; rewrite C, skipn_skipn; reflexivity|]. split; [exact D|]. split; [exact F|].
      intros Hc. destruct (G Hc). discriminate.
    + destruct (IH (skipn (S d) rem) out ch) as (o & r & c & A & B & (k & C) & D & F & G); [lia|assumption|].
      exists o, r, c. split; [exact A|]. split; [lia|]. split; [exists (S d + k)%nat; rewrite C, skipn_skipn; reflexivity|]. split; [exact D|]. split; [exact F|].
      intros Hc. destruct (G Hc) as [G1 G2]. split; [exact G1|]. intros Hh. apply G2. eapply hit_after; eassumption.
  - exists out, rem, ch. split; [reflexivity|]. split; [lia|]. split; [exists O; reflexivity|]. split; [exact Hp|]. split; [apply nocc_find; exact E|].
    intros ->. split; [reflexivity|]. intros (a & b & Ea & _). exact (proj1 (find_None _ _) E a b Ea).
Qed.

Lemma nl_ok fuel rem : (List.length rem < fuel)%nat -> exists o r c, nl fuel n rem [] false = Some (o, r, c) /\ (exists k, r = skipn k rem) /\ nocc n (o ++ r)%list /\ (c = false -> ~ hit rem).
Proof.
  intros H. destruct (nl_spec fuel rem [] false H p_nil) as (o & r & c & A & B & C & D & F & G).
  exists o, r, c. split; [exact A|]. split; [exact C|]. split; [apply pieces_nocc; assumption|]. intros Hc. apply G; exact Hc.
Qed.
End NL.

Lemma alow_alpha name : forallb is_alpha_ascii name = true -> ~ In 38 name /\ ~ In 59 name /\ is_ascii name = true.
Proof.
  intros H. rewrite forallb_forall in H. repeat split.
  - intros Hi. specialize (H _ Hi). discriminate H.
  - intros Hi. specialize (H _ Hi). discriminate H.
  - unfold is_ascii. rewrite forallb_forall. intros x Hx. specialize (H _ Hx). unfold is_alpha_ascii, is_upper_ascii, is_lower_ascii in H. unfold is_ascii_char. lia.
Qed.

Lemma closes_occ name t : closes name t -> occ (60 :: 47 :: name) t.
Proof.
  intros (a & buf & c & b & -> & <- & _). exists (alow a), (alow (c :: b)). unfold alow. rewrite map_app. cbn [map app]. rewrite map_app. reflexivity.
Qed.
Lemma closes_hit name t : closes name t -> hit (60 :: 47 :: name) t.
Proof.
  intros (a & buf & c & b & -> & <- & Hc). exists (alow a), (alow (c :: b)). split.
  - unfold alow. rewrite map_app. cbn [map app]. rewrite map_app. reflexivity.
  - cbn [List.length]. rewrite !alow_length. rewrite nth_error_app2 by lia.
    replace (List.length a + S (S (List.length buf)) - List.length a)%nat with (S (S (List.length buf))) by lia. cbn [nth_error].
    rewrite nth_error_app2 by lia. rewrite Nat.sub_diag. exact Hc.
Qed.

Lemma neutralize_total name t : forallb is_alpha_ascii name = true ->
  exists o c, neutralize_opt t name = Some (o, c) /\ ~ closes name o /\ (c = false -> o = t /\ ~ hit (60 :: 47 :: name) t).
Proof.
  intros Hn. destruct (alow_alpha name Hn) as (N1 & N2 & N3). unfold neutralize_opt.
  destruct t as [|x t].
  { exists [], false. split; [reflexivity|]. split; [intros (a & buf & c & b & E & _); destruct a; discriminate E|]. intros _. split; [reflexivity|].
    intros (a & b & E & _). destruct a; discriminate E. }
  set (T := x :: t). change (u "</") with [60; 47]. cbn [app].
  rewrite neutralize_loop_nl; [|exact N3|discriminate|lia]. cbn [skipn].
  destruct (nl_ok (60 :: 47 :: name)) with (fuel := S (S (List.length T))) (rem := T) as (o & r & c & A & (k & B) & C & D).
  - discriminate.
  - reflexivity.
  - cbn. intuition congruence.
  - cbn. intuition congruence.
  - lia.
  - rewrite A. destruct c.
    + exists (o ++ r)%list, true. split.
      * do 2 f_equal. f_equal. rewrite B, skipn_length. destruct (Nat.le_gt_cases k (List.length T)) as [Hk|Hk].
        -- replace (List.length T - (List.length T - k))%nat with k by lia. reflexivity.
        -- replace (List.length T - (List.length T - k))%nat with (List.length T) by lia. rewrite skipn_all. rewrite skipn_all2 by lia. reflexivity.
      * split; [|discriminate]. intros Hc. apply C. apply closes_occ. exact Hc.
    + exists T, false. split; [reflexivity|]. specialize (D eq_refl). split; [|auto]. intros Hc. apply D. apply closes_hit. exact Hc.
Qed.

Lemma neutralize_not_closes name t : forallb is_alpha_ascii name = true -> ~ closes name (neutralize t name).
Proof. intros H. destruct (neutralize_total name t H) as (o & c & E & Ho & _). unfold neutralize. rewrite E. exact Ho. Qed.

(* ---------- neutralising hides no script end that was not hidden before ---------- *)
Definition hasS (s : str) : Prop := exists a buf c d, s = (a ++ 60 :: buf ++ c :: d)%list /\ alow buf = u "script" /\ ends_name c = true.
Lemma hides_split s : hides_script_end s <-> exists s1 s2, s = (s1 ++ s2)%list /\ has_open s1 /\ hasS s2.
Proof.
  split.
  - intros (a & b & buf & c & d & -> & H1 & H2). exists (a ++ u "<!--")%list, (b ++ 60 :: buf ++ c :: d)%list.
    split; [rewrite <- !app_assoc; reflexivity|]. split; [exists a, []; rewrite app_nil_r; reflexivity|]. exists b, buf, c, d; auto.
  - intros (s1 & s2 & -> & (a & b & ->) & (b' & buf & c & d & -> & H1 & H2)). exists a, (b ++ b')%list, buf, c, d.
    split; [rewrite <- !app_assoc; reflexivity|auto].
Qed.
Lemma hasS_app a s b : hasS s -> hasS (a ++ s ++ b)%list.
Proof. intros (x & buf & c & d & -> & H). exists (a ++ x)%list, buf, c, (d ++ b)%list. split; [|exact H]. rewrite <- !app_assoc. cbn [app]. rewrite <- !app_assoc. reflexivity. Qed.
Lemma hides_app2 a s b : hides_script_end s -> hides_script_end (a ++ s ++ b)%list.
Proof.
  intros (x & y & buf & c & d & -> & H). exists (a ++ x)%list, y, buf, c, (d ++ b)%list. split; [|exact H].
  rewrite <- !app_assoc. cbn [app]. rewrite <- !app_assoc. reflexivity.
Qed.
Lemma script_word_no x buf c : alow buf = u "script" -> ends_name c = true -> x = 38 \/ x = 59 -> ~ In x (60 :: buf ++ [c])%list.
Proof.
  intros Hb Hc Hx [Hi|Hi]; [destruct Hx; congruence|]. apply in_app_or in Hi. destruct Hi as [Hi|[<-|[]]].
  - apply (in_map alow_c) in Hi. fold (alow buf) in Hi. rewrite Hb in Hi. destruct Hx as [->| ->]; vm_compute in Hi; intuition discriminate.
  - destruct Hx as [->| ->]; discriminate Hc.
Qed.
Lemma hasS_sep a x b : x = 38 \/ x = 59 -> hasS (a ++ x :: b)%list -> hasS a \/ hasS b.
Proof.
  intros Hx (p & buf & c & d & E & Hb & Hc).
  replace (p ++ 60 :: buf ++ c :: d)%list with (p ++ (60 :: buf ++ [c]) ++ d)%list in E by (cbn; rewrite <- !app_assoc; reflexivity).
  apply occ_split in E; [|apply script_word_no; assumption].
  destruct E as [(q & ->)|(q & ->)]; [left; exists p, buf, c, q|right; exists q, buf, c, d]; (split; [cbn; rewrite <- !app_assoc; reflexivity|auto]).
Qed.
Lemma open_sep a x b : x = 38 \/ x = 59 -> has_open (a ++ x :: b)%list -> has_open a \/ has_open b.
Proof.
  intros Hx (p & q & E). apply occ_split in E; [|destruct Hx as [->| ->]; vm_compute; intuition discriminate].
  destruct E as [(q' & ->)|(q' & ->)]; [left; exists p, q'|right; exists q', q]; reflexivity.
Qed.
Lemma hides_sep a x b : x = 38 \/ x = 59 -> hides_script_end (a ++ x :: b)%list ->
  hides_script_end a \/ hides_script_end b \/ (has_open a /\ hasS b).
Proof.
  intros Hx H. apply hides_split in H. destruct H as (s1 & s2 & E & Ho & HS).
  apply app_eq_app in E. destruct E as (l & [[Ea Eb]|[Ea Eb]]).
  - subst. apply hasS_sep in HS; [|exact Hx]. destruct HS as [HS|HS].
    + left. apply hides_split. exists s1, l. auto.
    + right; right. split; [|exact HS]. destruct Ho as (p & q & ->). exists p, (q ++ l)%list. rewrite <- !app_assoc. reflexivity.
  - destruct l as [|y l].
    + rewrite app_nil_r in Ea. subst s1. cbn in Eb. subst s2. change (x :: b)%list with ([] ++ x :: b)%list in HS. apply hasS_sep in HS; [|exact Hx].
      destruct HS as [(p & buf & c & d & E & _)|HS]; [destruct p; discriminate E|]. right; right; auto.
    + cbn in Eb. injection Eb as <- ->. subst s1. apply open_sep in Ho; [|exact Hx]. destruct Ho as [Ho|Ho].
      * right; right. split; [exact Ho|]. pose proof (hasS_app l s2 [] HS) as K. rewrite app_nil_r in K. exact K.
      * right; left. apply hides_split. exists l, s2. auto.
Qed.
Lemma hasS_lt X : hasS (u "lt;" ++ X)%list -> hasS X.
Proof.
  intros H. change (u "lt;" ++ X)%list with ([108; 116] ++ 59 :: X)%list in H. apply hasS_sep in H; [|auto].
  destruct H as [(p & buf & c & d & E & _)|H]; [|exact H]. destruct p as [|? [|? [|? p]]]; cbn in E; try discriminate E; destruct buf; discriminate E.
Qed.
Lemma no_open_lt : ~ has_open [108; 116].
Proof. intros (p & q & E). destruct p as [|? [|? [|? p]]]; cbn in E; discriminate E. Qed.
Lemma no_hasS_lt : ~ hasS [108; 116].
Proof. intros (p & buf & c & d & E & _). destruct p as [|? [|? [|? p]]]; cbn in E; try discriminate E; destruct buf; discriminate E. Qed.
Lemma hides_lt X : hides_script_end (u "lt;" ++ X)%list -> hides_script_end X.
Proof.
  intros H. change (u "lt;" ++ X)%list with ([108; 116] ++ 59 :: X)%list in H. apply hides_sep in H; [|auto].
  destruct H as [H|[H|[H _]]]; [|exact H|destruct (no_open_lt H)].
  exfalso. apply no_open_lt. apply hides_split in H. destruct H as (s1 & s2 & E & (p & q & ->) & _). rewrite <- !app_assoc in E. exists p, (q ++ s2)%list. exact E.
Qed.

Lemma nl_hides n fuel : forall rem out ch o r c, nl fuel n rem out ch = Some (o, r, c) ->
  exists w, o = (out ++ w)%list /\ (hasS (w ++ r)%list -> hasS rem) /\ (hides_script_end (w ++ r)%list -> hides_script_end rem).
Proof.
  induction fuel as [|f IH]; intros rem out ch o r c H; [discriminate|]. cbn [nl] in H.
  destruct (find n (alow rem)) as [d|].
  - assert (Ed : rem = (firstn d rem ++ skipn d rem)%list) by (symmetry; apply firstn_skipn).
    assert (Esk : (exists z, skipn d rem = (z ++ skipn (S d) rem)%list)).
    { destruct (skipn d rem) as [|x t] eqn:E; [exists []; replace (S d) with (d + 1)%nat by lia; rewrite <- skipn_skipn, E; reflexivity|].
      exists [x]. replace (S d) with (d + 1)%nat by lia. rewrite <- skipn_skipn, E. reflexivity. }
    destruct Esk as (z & Ez).
    assert (S1 : hasS (skipn (S d) rem) -> hasS rem).
    { intros HS. rewrite Ed, Ez. rewrite app_assoc. pose proof (hasS_app (firstn d rem ++ z) _ [] HS) as K. rewrite app_nil_r in K. exact K. }
    assert (S2 : hides_script_end (skipn (S d) rem) -> hides_script_end rem).
    { intros HS. rewrite Ed, Ez. rewrite app_assoc. pose proof (hides_app2 (firstn d rem ++ z) _ [] HS) as K. rewrite app_nil_r in K. exact K. }
    destruct (match nth_error rem _ with None => true | Some c0 => space_or_tag_end c0 end).
    + apply IH in H. destruct H as (w & -> & I1 & I2). exists (firstn d rem ++ u "&lt;" ++ w)%list. split; [rewrite <- !app_assoc; reflexivity|].
      change (u "&lt;") with (38 :: u "lt;"). rewrite <- !app_assoc. cbn [app].
      change (108 :: 116 :: 59 :: w ++ r)%list with (u "lt;" ++ w ++ r)%list.
      assert (F1 : hasS (firstn d rem) -> hasS rem) by (intros HS; rewrite Ed; apply (hasS_app [] _ _ HS)).
      split.
      * intros K. apply hasS_sep in K; [|auto]. destruct K as [K|K]; [auto|]. apply hasS_lt in K. auto.
      * intros K. apply hides_sep in K; [|auto]. destruct K as [K|[K|[K1 K2]]].
        -- rewrite Ed. apply (hides_app2 [] _ _ K).
        -- apply hides_lt in K. auto.
        -- apply hasS_lt in K2. apply I1 in K2. rewrite Ed, Ez. apply hides_split. exists (firstn d rem), (z ++ skipn (S d) rem)%list.
           split; [reflexivity|]. split; [exact K1|]. pose proof (hasS_app z _ [] K2) as K. rewrite app_nil_r in K. exact K.
    + apply IH in H. destruct H as (w & -> & I1 & I2). exists w. split; [reflexivity|]. split; auto.
  - injection H as <- <- <-. exists []. split; [rewrite app_nil_r; reflexivity|]. auto.
Qed.

Lemma neutralize_hides name t : forallb is_alpha_ascii name = true -> hides_script_end (neutralize t name) -> hides_script_end t.
Proof.
  intros Hn. unfold neutralize, neutralize_opt. destruct t as [|x t]; [auto|].
  destruct (alow_alpha name Hn) as (N1 & N2 & N3).
  rewrite neutralize_loop_nl; [|exact N3|discriminate|lia]. cbn [skipn].
  destruct (nl_ok (u "</" ++ name)) with (fuel := S (S (List.length (x :: t)))) (rem := x :: t) as (o & r & c & A & (k & B) & _);
    [discriminate|reflexivity|cbn; intuition congruence|cbn; intuition congruence|lia|].
  rewrite A. destruct c; [|auto].
  apply nl_hides in A. destruct A as (w & -> & _ & H). cbn [app].
  replace (skipn (List.length (x :: t) - List.length r) (x :: t)) with r; [exact H|].
  rewrite B, skipn_length. set (T := x :: t). destruct (Nat.le_gt_cases k (List.length T)) as [Hk|Hk].
  - replace (List.length T - (List.length T - k))%nat with k by lia. reflexivity.
  - replace (List.length T - (List.length T - k))%nat with (List.length T) by lia. rewrite skipn_all. rewrite skipn_all2 by lia. reflexivity.
Qed.
