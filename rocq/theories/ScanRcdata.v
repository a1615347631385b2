(* title and textarea: the tokenizer of the standard, with lookahead *)
From Coq Require Import Lia ZifyBool ZifyN ZifyNat.
From Verif Require Import Str StrFacts HtmlCharRefSpec HtmlTokSpec TokFacts RawTextSpec CharRefFacts ScanModel ScanComProofs ScanRawProofs ScanScriptProofs ScanFirst ScanTail ScanRawFinal.
From Verif Require ScanComFinal.
Open Scope list_scope. Open Scope N_scope.
Local Opaque charref.

Lemma split_at x (t : str) : In x t -> exists a b, t = a ++ x :: b /\ ~ In x a.
Proof.
  induction t as [|c t IH]; intros I; [contradiction|]. destruct (N.eqb_spec c x) as [->|Nc]; [exists [], t; split; [reflexivity|intros []]|]. destruct I as [I|I]; [congruence|]. destruct (IH I) as (a & b & -> & Na). exists (c :: a), b. split; [reflexivity|]. intros [K|K]; [congruence|exact (Na K)].
Qed.
Lemma nul_none t : ~ In 0 t -> map nul t = t.
Proof. intros H. rewrite <- (map_id t) at 2. apply map_ext_in. intros c I. unfold nul. destruct (N.eqb_spec c 0) as [->|]; [contradiction|reflexivity]. Qed.
Lemma charref_nul a t : charref a (map nul t) = charref a t.
Proof.
  destruct (in_dec N.eq_dec 0 t) as [I|I]; [|rewrite nul_none by exact I; reflexivity]. destruct (split_at 0 t I) as (x & y & -> & Nx). rewrite map_app, (nul_none x Nx). cbn [map]. change (nul 0) with 65533. rewrite !charref_cut by (try reflexivity; discriminate). reflexivity.
Qed.
Lemma decode_skip a n : forall s, (n <= List.length s)%nat -> decode_spec_go a n s = decode_spec_go a O (skipn n s).
Proof. induction n as [|n IH]; intros s L; [reflexivity|]. destruct s as [|c s]; [cbn in L; lia|]. cbn [decode_spec_go skipn]. apply IH. cbn [List.length] in L. lia. Qed.
Lemma run_skipn sc last st n : forall s, (n <= List.length s)%nat -> run sc n last st s = run sc O last st (skipn n s).
Proof. intros s L. pose proof (run_skip sc last st (firstn n s) (skipn n s)) as K. rewrite firstn_length_le, firstn_skipn in K by exact L. exact K. Qed.

(* the text of such an element: NUL is replaced, character references are decoded *)
Definition rc (s : str) : str := decode_spec false (map nul s).
Lemma rc_other c s : c <> 38 -> rc (c :: s) = nul c :: rc s.
Proof. intros H. unfold rc, decode_spec. cbn [map decode_spec_go]. replace (nul c =? 38) with false; [reflexivity|]. symmetry. unfold nul. destruct (c =? 0); [reflexivity|]. apply N.eqb_neq. exact H. Qed.
Lemma rc_amp s : rc (38 :: s) = match charref false s with Some (v, n) => v ++ rc (skipn n s) | None => 38 :: rc s end.
Proof.
  unfold rc, decode_spec. cbn [map]. change (nul 38) with 38. cbn [decode_spec_go N.eqb Pos.eqb]. rewrite charref_nul. destruct (charref false s) as [[v n]|] eqn:E; [|reflexivity]. destruct (charref_chars _ _ _ _ E) as [L _]. rewrite decode_skip by (rewrite map_length; exact L). rewrite skipn_map. reflexivity.
Qed.
Section Rcd.
Variables (name : str) (sc : bool).
Hypothesis name_ok : forallb is_lower_ascii name = true.
Hypothesis name_ne : name <> [].
Definition rend (o : option nat) (s : str) : list token :=
  match o with
  | None => chars (rc s)
  | Some i => chars (rc (firstn i s)) ++ run sc O name (RawEndName RRcdata name) (skipn (i + List.length (tag name)) s)
  end.
Notation look s := (lk name MRaw O s).
Lemma rend_S o c s : c <> 38 -> rend (option_map S o) (c :: s) = TChar (nul c) :: rend o s.
Proof. intros H. destruct o; cbn [option_map rend firstn]; rewrite rc_other by exact H; reflexivity. Qed.
Lemma rend_letters b : forall s, forallb is_alpha_ascii b = true -> rend (look (b ++ s)) (b ++ s) = chars b ++ rend (look s) s.
Proof.
  induction b as [|c b IH]; intros s H; [reflexivity|]. cbn [forallb] in H. apply andb_true_iff in H as [Hc Hb]. cbn [app]. rewrite lk_quiet by (apply alpha_quiet; exact Hc). rewrite rend_S, IH by (try exact Hb; intros ->; discriminate Hc). unfold chars. cbn [map]. destruct (alpha_cases c Hc) as (_ & _ & _ & _ & _ & _ & ->). reflexivity.
Qed.
Lemma rend_close b s : decide name MRaw (60 :: 47 :: b ++ s) = Go -> forallb is_alpha_ascii b = true -> rend (look (60 :: 47 :: b ++ s)) (60 :: 47 :: b ++ s) = TChar 60 :: TChar 47 :: chars b ++ rend (look s) s.
Proof. intros D Hb. rewrite lk_go by exact D. rewrite rend_S by discriminate. rewrite lk_quiet by apply slash_quiet. rewrite rend_S by discriminate. rewrite rend_letters by exact Hb. reflexivity. Qed.
Lemma dec_end b c t : forallb is_alpha_ascii b = true -> is_alpha_ascii c = false -> decide name MRaw (60 :: 47 :: b ++ c :: t) = if str_eqb (alow b) name && ends_name c then Stop else Go.
Proof. intros Hb Hc. cbn [decide]. rewrite at_tag_letters by assumption. reflexivity. Qed.
Lemma dec_end_eof b : forallb is_alpha_ascii b = true -> decide name MRaw (60 :: 47 :: b) = Go.
Proof. intros Hb. cbn [decide]. rewrite at_tag_letters_end by assumption. reflexivity. Qed.
Lemma rcd_name n : (forall s, (List.length s <= n)%nat -> ~ In 13 s -> run sc O name Rcdata s = rend (look s) s) ->
  forall s b, (List.length s <= n)%nat -> ~ In 13 s -> forallb is_alpha_ascii b = true -> run sc O name (RawEndName RRcdata b) s = rend (look (60 :: 47 :: b ++ s)) (60 :: 47 :: b ++ s).
Proof.
  intros A s. induction s as [|c t IH]; intros b L N13 Hb.
  - rewrite (app_nil_r b). pose proof (rend_close b []) as R. rewrite (app_nil_r b) in R. rewrite R by (try assumption; apply dec_end_eof; assumption). cbn [lk rend]. change (chars (rc [])) with (@nil token). rewrite app_nil_r. reflexivity.
  - assert (Nc : c <> 13) by (intros ->; apply N13; left; reflexivity). cbn [List.length] in L. destruct (is_alpha_ascii c) eqn:Ea.
    + destruct (alpha_cases c Ea) as (_ & E1 & E2 & E3 & _). rewrite (run_eat _ _ _ _ _ (RawEndName RRcdata (snoc b c))) by (cbn [step]; rewrite E1, E2, E3, Ea; reflexivity). rewrite IH; [unfold snoc; rewrite <- app_assoc; reflexivity|lia|intros K; apply N13; right; exact K|].
      unfold snoc. rewrite forallb_app, Hb. cbn [forallb]. rewrite Ea. reflexivity.
    + destruct (str_eqb (alow b) name && ends_name c) eqn:E.
      * apply andb_true_iff in E as [E1 E2]. apply str_eqb_eq in E1. rewrite stop_iff in E2 by exact Nc. rewrite (end_name_run name sc name_ok RRcdata RRcdata b c t E1 E2). assert (D : look (60 :: 47 :: b ++ c :: t) = Some O).
        { cbn [lk]. rewrite dec_end by assumption. rewrite E1, str_eqb_refl, stop_iff, E2 by exact Nc. reflexivity. }
        rewrite D. unfold rend. cbn [firstn]. change (chars (rc [])) with (@nil token). cbn [app Nat.add]. assert (Q : skipn (List.length (tag name)) (60 :: 47 :: b ++ c :: t) = c :: t); [|rewrite Q; reflexivity]. unfold tag. cbn [List.length skipn]. rewrite <- E1. unfold alow. rewrite map_length. rewrite skipn_app, skipn_all, Nat.sub_diag. reflexivity.
      * rewrite (rend_close b (c :: t)) by (try assumption; rewrite dec_end, E by assumption; reflexivity).
        rewrite (run_again _ _ _ _ _ (TChar 60 :: TChar 47 :: chars b) Rcdata).
        -- rewrite A by (try exact N13; cbn [List.length]; lia). reflexivity.
        -- cbn [step]. rewrite Ea. rewrite stop_iff in E by exact Nc. destruct (ws c), (c =? 47), (c =? 62), (str_eqb (alow b) name); try discriminate E; reflexivity.
Qed.
Lemma rcd_open n : (forall s, (List.length s <= n)%nat -> ~ In 13 s -> run sc O name Rcdata s = rend (look s) s) ->
  forall s, (List.length s <= n)%nat -> ~ In 13 s -> run sc O name (RawEndOpen RRcdata) s = rend (look (60 :: 47 :: s)) (60 :: 47 :: s).
Proof.
  intros A s L N13. destruct s as [|c t].
  - pose proof (rend_close [] []) as R. cbn [app] in R. rewrite R by (try reflexivity; apply (dec_end_eof []); reflexivity). reflexivity.
  - destruct (is_alpha_ascii c) eqn:Ea.
    + rewrite (run_again _ _ _ _ _ [] (RawEndName RRcdata [])) by (cbn [step]; rewrite Ea; reflexivity). cbn [app]. apply (rcd_name n A (c :: t) [] L N13 eq_refl).
    + rewrite (run_again _ _ _ _ _ [TChar 60; TChar 47] Rcdata) by (cbn [step]; rewrite Ea; reflexivity). rewrite A by assumption.
      pose proof (rend_close [] (c :: t)) as R. cbn [app] in R. rewrite R; [reflexivity| |reflexivity]. pose proof (dec_end [] c t eq_refl Ea) as D. cbn [app] in D. rewrite D. cbn [alow map]. destruct name; [congruence|reflexivity].
Qed.
Lemma at_i s i : look s = Some i -> exists b, s = firstn i s ++ 60 :: b /\ (i < List.length s)%nat.
Proof.
  intros H. destruct (lk_raw_spec name name_ok s i H) as (L & K & _). destruct (skipn i s) as [|c b] eqn:E; [apply at_tag_hits in K; discriminate K|]. exists b. assert (c = 60) as -> by (destruct (N.eqb_spec c 60) as [->|Q]; [reflexivity|]; unfold tag in K; rewrite tag_none in K by exact Q; discriminate K). split; [rewrite <- E; symmetry; apply firstn_skipn|exact L].
Qed.
(* the reference is the same when the text is cut at the end tag *)
Lemma charref_firstn s i : look s = Some i -> charref false (firstn i s) = charref false s.
Proof. intros H. destruct (at_i s i H) as (b & E & _). rewrite E at 2. symmetry. apply charref_cut; [reflexivity|discriminate]. Qed.
Lemma rcdata_ok n : forall s, (List.length s <= n)%nat -> ~ In 13 s -> run sc O name Rcdata s = rend (look s) s.
Proof.
  induction n as [|n IH]; intros s L N13; [destruct s; [reflexivity|cbn in L; lia]|]. destruct s as [|c t]; [reflexivity|]. cbn [List.length] in L. assert (N13' : ~ In 13 t) by (intros K; apply N13; right; exact K). destruct (N.eqb_spec c 38) as [->|N38].
  - rewrite (lk_quiet name MRaw 38) by reflexivity. destruct (charref false t) as [[v k]|] eqn:E.
    + destruct (charref_chars _ _ _ _ E) as [Lk Fk]. rewrite (run_eatn _ _ _ _ _ (chars v) k Rcdata) by (cbn [step N.eqb Pos.eqb]; rewrite E; reflexivity). rewrite run_skipn by exact Lk.
      rewrite IH; [|rewrite skipn_length; lia|intros K; apply N13'; rewrite <- (firstn_skipn k t); apply in_or_app; right; exact K].
      assert (P : look t = option_map (fun i => (k + i)%nat) (look (skipn k t))).
      { apply lk_pass; [exact Lk|]. intros j J. destruct (skipn j t) as [|x r] eqn:Q; [assert (Z : List.length (skipn j t) = O) by (rewrite Q; reflexivity); rewrite skipn_length in Z; lia|]. apply decide_quiet. rewrite forallb_forall in Fk. assert (In x (firstn k t)).
        { rewrite <- (firstn_skipn j (firstn k t)). apply in_or_app. right. rewrite skipn_firstn_comm, Q. destruct (k - j)%nat eqn:Z; [lia|]. left. reflexivity. }
        specialize (Fk x H). unfold quiet. destruct (N.eqb_spec x 60) as [->|]; [discriminate Fk|reflexivity]. }
      destruct (look (skipn k t)) as [i|] eqn:Li; rewrite P; cbn [option_map rend].
      * change (firstn (S (k + i)) (38 :: t)) with (38 :: firstn (k + i) t). rewrite rc_amp, (charref_firstn t (k + i) P), E. rewrite skipn_firstn_comm. replace (k + i - k)%nat with i by lia. rewrite chars_app, <- app_assoc. change (skipn (S (k + i) + List.length (tag name)) (38 :: t)) with (skipn (k + i + List.length (tag name)) t). rewrite <- Nat.add_assoc, !skipn_sk. reflexivity.
      * rewrite rc_amp, E, chars_app. reflexivity.
    + rewrite (run_out _ _ _ _ _ 38 Rcdata) by (cbn [step N.eqb Pos.eqb]; rewrite E; reflexivity). rewrite IH by (try exact N13'; lia). destruct (look t) as [i|] eqn:Li; cbn [option_map rend].
      * change (firstn (S i) (38 :: t)) with (38 :: firstn i t). rewrite rc_amp, (charref_firstn t i Li), E. reflexivity.
      * rewrite rc_amp, E. reflexivity.
  - destruct (N.eqb_spec c 60) as [->|N60].
    + rewrite (run_eat _ _ _ _ _ (RawLT RRcdata)) by reflexivity. destruct t as [|d t']; [cbn [run eof]; rewrite lk_go by reflexivity; reflexivity|]. cbn [List.length] in L. assert (N13'' : ~ In 13 t') by (intros K; apply N13'; right; exact K). destruct (N.eqb_spec d 47) as [->|N47].
      * rewrite (run_eat _ _ _ _ _ (RawEndOpen RRcdata)) by reflexivity. apply (rcd_open n IH); [lia|exact N13''].
      * rewrite (run_again _ _ _ _ _ [TChar 60] Rcdata) by (cbn [step]; replace (d =? 47) with false by lia; reflexivity). rewrite IH by (try exact N13'; cbn [List.length]; lia). rewrite (lk_go name MRaw 60) by (cbn [decide]; rewrite tag_slash by exact N47; reflexivity). rewrite rend_S by discriminate. reflexivity.
    + rewrite (run_out _ _ _ _ _ (nul c) Rcdata) by (cbn [step]; replace (c =? 38) with false by lia; replace (c =? 60) with false by lia; reflexivity). rewrite lk_quiet by (unfold quiet; lia). rewrite rend_S by exact N38. rewrite IH by (try exact N13'; lia). reflexivity.
Qed.
Lemma rcdata_run s : run sc O name Rcdata (newlines s) =
  match lk name MRaw O s with
  | None => chars (rc (newlines s))
  | Some i => chars (rc (newlines (firstn i s))) ++ run sc O name (RawEndName RRcdata name) (newlines (skipn (i + List.length (tag name)) s))
  end.
Proof.
  rewrite (rcdata_ok (List.length (newlines s)) (newlines s) (le_n _) (no_cr _ s (le_n _))). pose proof (lk_same name name_ok (List.length s) MRaw O s (le_n _) (fun I => I)) as K. unfold same in K. unfold rend. destruct (lk name MRaw 0 s) as [i|] eqn:E, (lk name MRaw 0 (newlines s)) as [i'|]; try contradiction; [|reflexivity]. destruct K as [A B]. rewrite A, (skip_tag name name_ok s i i'); [reflexivity| |exact B]. apply (lk_raw_spec name name_ok s i E).
Qed.
End Rcd.
