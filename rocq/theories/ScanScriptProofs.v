(* raw text and scripts, continued: the tokenizer of the standard is the lookahead machine *)
From Coq Require Import Lia ZifyBool ZifyN ZifyNat.
From Verif Require Import Str StrFacts HtmlCharRefSpec HtmlTokSpec TokFacts RawTextSpec ScanRawProofs.
Open Scope N_scope.

Lemma tag_slash name c t : c <> 47 -> at_tag (tag name) (60 :: c :: t) = false.
Proof. intros H. unfold at_tag, tag. cbn [strip_ci]. cbn [alow_c is_upper_ascii N.leb N.compare Pos.compare Pos.compare_cont andb N.eqb Pos.eqb]. rewrite alow_slash. replace (c =? 47) with false by lia. reflexivity. Qed.
Section Raw.
Variables (name : str) (sc : bool).
Hypothesis name_ok : forallb is_lower_ascii name = true.
Hypothesis name_ne : name <> [].
Lemma raw_ok n : forall s, (List.length s <= n)%nat -> ~ In 13 s -> run sc O name Rawtext s = render name sc RRawtext (lk name MRaw O s) s.
Proof.
  induction n as [|n IH]; intros s L N13; [destruct s; [reflexivity|cbn in L; lia]|]. destruct s as [|c t]; [reflexivity|]. cbn [List.length] in L. assert (N13' : ~ In 13 t) by (intros K; apply N13; right; exact K).
  destruct (N.eqb_spec c 60) as [->|Nc].
  - rewrite (run_eat _ _ _ _ _ (RawLT RRawtext)) by reflexivity. destruct t as [|c t]; [reflexivity|]. cbn [List.length] in L. destruct (N.eqb_spec c 47) as [->|Nc].
    + rewrite (run_eat _ _ _ _ _ (RawEndOpen RRawtext)) by reflexivity. apply (end_open_ok name sc name_ok name_ne n RRawtext RRawtext); [discriminate|intros s Ls Ns; apply IH; assumption|lia|intros K; apply N13'; right; exact K].
    + rewrite (run_again _ _ _ _ _ [TChar 60] Rawtext) by (cbn [step]; replace (c =? 47) with false by lia; reflexivity). rewrite IH by (try exact N13'; cbn [List.length]; lia). rewrite (lk_go name MRaw 60) by (cbn [decide]; rewrite tag_slash by exact Nc; reflexivity). rewrite render_S. reflexivity.
  - rewrite (run_out _ _ _ _ _ (nul c) Rawtext) by (cbn [step]; replace (c =? 60) with false by lia; reflexivity). rewrite lk_quiet by (unfold quiet; lia). rewrite render_S, IH by (try exact N13'; lia). reflexivity.
Qed.
End Raw.

Section Script.
Variable sc : bool.
Definition script : str := u "script".
Notation R := (run sc O script).
Notation out m s := (render script sc RScript (lk script m O s) s).
Lemma sname_ok : forallb is_lower_ascii script = true. Proof. reflexivity. Qed.
Lemma sname_ne : script <> []. Proof. discriminate. Qed.
Lemma out_quiet m c t : quiet m c = true -> out m (c :: t) = TChar (nul c) :: out m t.
Proof. intros H. rewrite lk_quiet by exact H. apply render_S. Qed.
Lemma out_go m c t : decide script m (c :: t) = Go -> out m (c :: t) = TChar (nul c) :: out m t.
Proof. intros H. rewrite lk_go by exact H. apply render_S. Qed.
Lemma render_app p : forall o t, render script sc RScript (option_map (fun i => (List.length p + i)%nat) o) (p ++ t) = (chars (map nul p) ++ render script sc RScript o t)%list.
Proof.
  induction p as [|c p IH]; intros o t; [destruct o; reflexivity|]. change (chars (map nul (c :: p))) with (TChar (nul c) :: chars (map nul p)). cbn [List.length app]. rewrite <- (IH o t). rewrite <- render_S. f_equal. destruct o; reflexivity.
Qed.
Lemma out_jump m m' c p t : decide script m (c :: p ++ t) = Jump m' (List.length p) -> out m (c :: p ++ t) = (TChar (nul c) :: chars (map nul p) ++ out m' t)%list.
Proof. intros H. rewrite (lk_jump _ _ _ _ _ _ H). rewrite render_S, lk_skip. rewrite render_app. reflexivity. Qed.
Lemma open_letters p b c t : forallb is_alpha_ascii b = true -> is_alpha_ascii c = false -> forallb is_lower_ascii p = true -> at_tag (60 :: p) (60 :: b ++ c :: t) = str_eqb (alow b) p && ends_name c.
Proof. intros Hb Hc Hp. unfold at_tag. cbn [strip_ci]. cbn [alow_c is_upper_ascii N.leb N.compare Pos.compare Pos.compare_cont andb N.eqb Pos.eqb]. apply strip_letters; assumption. Qed.
Lemma open_letters_end p b : forallb is_alpha_ascii b = true -> at_tag (60 :: p) (60 :: b) = false.
Proof. intros Hb. unfold at_tag. cbn [strip_ci]. cbn [alow_c is_upper_ascii N.leb N.compare Pos.compare Pos.compare_cont andb N.eqb Pos.eqb]. apply strip_letters_end. exact Hb. Qed.
Lemma sname_eq : script_open = 60 :: script. Proof. reflexivity. Qed.
Lemma stag_eq : u "</script" = tag script. Proof. reflexivity. Qed.
Lemma esc_lt c t : is_alpha_ascii c = false -> c <> 47 -> decide script MEsc (60 :: c :: t) = Go.
Proof.
  intros Ha N47. cbn [decide]. rewrite sname_eq. pose proof (open_letters script [] c t eq_refl Ha eq_refl) as Q. cbn [app alow map] in Q. rewrite Q. rewrite tag_slash by exact N47. reflexivity.
Qed.
Lemma letters_out m b s : forallb is_alpha_ascii b = true -> out m (b ++ s) = (chars b ++ out m s)%list.
Proof. apply render_letters. Qed.
Lemma nul_letters b : forallb is_alpha_ascii b = true -> map nul b = b.
Proof. intros H. rewrite forallb_forall in H. rewrite <- (map_id b) at 2. apply map_ext_in. intros c I. destruct (alpha_cases c (H c I)) as (_ & _ & _ & _ & _ & _ & E). exact E. Qed.
Lemma stop_quiet m c : ends_name c = true -> quiet m c = true.
Proof. intros H. destruct (stop_cases c H) as (_ & A & B & _). unfold quiet. rewrite A, B. destruct m; reflexivity. Qed.
Lemma stop_nul c : ends_name c = true -> nul c = c.
Proof. intros H. destruct (stop_cases c H) as (_ & _ & _ & A & _). unfold nul. rewrite A. reflexivity. Qed.
(* "<" and letters, in the escaped text *)
Lemma esc_letters b c t : forallb is_alpha_ascii b = true -> is_alpha_ascii c = false -> b <> [] ->
  out MEsc (60 :: b ++ c :: t) = (TChar 60 :: chars b ++ out (if str_eqb (alow b) script && ends_name c then MDbl else MEsc) (c :: t))%list.
Proof.
  intros Hb Hc Nb. assert (Nt : at_tag (tag script) (60 :: b ++ c :: t) = false).
  { destruct b as [|x b]; [congruence|]. cbn [app]. apply tag_slash. intros ->. discriminate Hb. }
  destruct (str_eqb (alow b) script && ends_name c) eqn:E.
  - rewrite (out_jump MEsc MDbl 60 b (c :: t)); [rewrite nul_letters by exact Hb; reflexivity|]. cbn [decide]. rewrite sname_eq, open_letters, E by (try assumption; reflexivity). change (starts (u "-->") (60 :: b ++ c :: t)) with false. cbv iota. f_equal. apply andb_true_iff in E as [E _]. apply str_eqb_eq in E. apply (f_equal (@List.length N)) in E. unfold alow in E. rewrite map_length in E. rewrite E. reflexivity.
  - rewrite out_go; [rewrite letters_out by exact Hb; reflexivity|]. cbn [decide]. rewrite sname_eq, open_letters, E by (try assumption; reflexivity). rewrite Nt. reflexivity.
Qed.
Lemma esc_letters_end b : forallb is_alpha_ascii b = true -> out MEsc (60 :: b) = TChar 60 :: chars b.
Proof.
  intros Hb. assert (Nt : at_tag (tag script) (60 :: b) = false).
  { destruct b as [|x b]; [reflexivity|]. apply tag_slash. intros ->. discriminate Hb. }
  rewrite out_go; [|cbn [decide]; rewrite sname_eq, open_letters_end by exact Hb; rewrite Nt; reflexivity]. pose proof (letters_out MEsc b [] Hb) as Q. rewrite app_nil_r in Q. rewrite Q. cbn [lk render map]. rewrite app_nil_r. reflexivity.
Qed.
Lemma dbl_letters b c t : forallb is_alpha_ascii b = true -> is_alpha_ascii c = false ->
  out MDbl (60 :: 47 :: b ++ c :: t) = (TChar 60 :: TChar 47 :: chars b ++ out (if str_eqb (alow b) script && ends_name c then MEsc else MDbl) (c :: t))%list.
Proof.
  intros Hb Hc. destruct (str_eqb (alow b) script && ends_name c) eqn:E.
  - pose proof (out_jump MDbl MEsc 60 (47 :: b) (c :: t)) as J. cbn [app map] in J. rewrite J; [rewrite nul_letters by exact Hb; reflexivity|]. clear J. cbn [decide app]. rewrite stag_eq, at_tag_letters, E by (try assumption; reflexivity). change (starts (u "-->") (60 :: 47 :: b ++ c :: t)) with false. cbv iota. f_equal. apply andb_true_iff in E as [E _]. apply str_eqb_eq in E. apply (f_equal (@List.length N)) in E. unfold alow in E. rewrite map_length in E. cbn [List.length]. rewrite E. reflexivity.
  - rewrite out_go by (cbn [decide]; rewrite stag_eq, at_tag_letters, E by (try assumption; reflexivity); reflexivity). rewrite out_quiet by reflexivity. rewrite letters_out by exact Hb. reflexivity.
Qed.
Lemma dbl_letters_end b : forallb is_alpha_ascii b = true -> out MDbl (60 :: 47 :: b) = TChar 60 :: TChar 47 :: chars b.
Proof.
  intros Hb. rewrite out_go by (cbn [decide]; rewrite stag_eq, at_tag_letters_end by exact Hb; reflexivity). rewrite out_quiet by reflexivity. pose proof (letters_out MDbl b [] Hb) as Q. rewrite app_nil_r in Q. rewrite Q. cbn [lk render map]. rewrite app_nil_r. reflexivity.
Qed.

Definition all (n : nat) : Prop := forall s, (List.length s <= n)%nat -> ~ In 13 s -> R ScriptData s = out MData s /\ R ScriptEsc s = out MEsc s /\ R ScriptDbl s = out MDbl s
  /\ TChar 45 :: R ScriptEscDash s = out MEsc (45 :: s) /\ TChar 45 :: TChar 45 :: R ScriptEscDashDash s = out MEsc (45 :: 45 :: s)
  /\ TChar 45 :: R ScriptDblDash s = out MDbl (45 :: s) /\ TChar 45 :: TChar 45 :: R ScriptDblDashDash s = out MDbl (45 :: 45 :: s)
  /\ R (RawLT RScript) s = out MData (60 :: s) /\ R (RawLT RScriptEsc) s = out MEsc (60 :: s) /\ TChar 60 :: R ScriptDblLT s = out MDbl (60 :: s)
  /\ TChar 60 :: TChar 33 :: R ScriptEscStart s = out MData (60 :: 33 :: s) /\ TChar 60 :: TChar 33 :: TChar 45 :: R ScriptEscStartDash s = out MData (60 :: 33 :: 45 :: s).
(* the letters after "<" in escaped text, and after "</" in double escaped text *)
Lemma dbl_start n : all n -> forall s b b', (List.length s <= S n)%nat -> ~ In 13 s -> forallb is_alpha_ascii b = true -> alow b = b' -> (b = [] -> match s with c :: _ => is_alpha_ascii c = true | [] => False end) ->
  (forall s', (List.length s' <= S n)%nat -> ~ In 13 s' -> R ScriptEsc s' = out MEsc s') -> TChar 60 :: (chars b ++ R (ScriptDblStart b') s)%list = out MEsc (60 :: b ++ s).
Proof.
  intros A s. induction s as [|c t IH]; intros b b' L N13 Hb Eb Nb EscOk.
  - rewrite (app_nil_r b), esc_letters_end by exact Hb. cbn [run eof]. rewrite app_nil_r. reflexivity.
  - assert (Nc : c <> 13) by (intros ->; apply N13; left; reflexivity). assert (N13' : ~ In 13 t) by (intros K; apply N13; right; exact K). cbn [List.length] in L. destruct (is_alpha_ascii c) eqn:Ea.
    + destruct (alpha_cases c Ea) as (_ & E1 & E2 & E3 & _). rewrite (run_out _ _ _ _ _ c (ScriptDblStart (snoc b' (alow_c c)))) by (cbn [step]; rewrite E1, E2, E3, Ea; reflexivity).
      specialize (IH (snoc b c) (snoc b' (alow_c c))). unfold snoc in *. rewrite <- app_assoc in IH. cbn [app] in IH. rewrite <- IH; [rewrite chars_app, <- app_assoc; reflexivity|lia|exact N13'|rewrite forallb_app, Hb; cbn [forallb]; rewrite Ea; reflexivity|unfold alow in *; rewrite map_app, Eb; reflexivity|intros K; destruct b; discriminate K|exact EscOk].
    + assert (Nb' : b <> []) by (intros ->; specialize (Nb eq_refl); cbv beta iota in Nb; congruence). rewrite esc_letters by assumption. f_equal. f_equal. rewrite Eb, stop_iff by exact Nc. destruct (ws c || (c =? 47) || (c =? 62)) eqn:Es.
      * rewrite (run_out _ _ _ _ _ c (if str_eqb b' (u "script") then ScriptDbl else ScriptEsc)) by (cbn [step]; rewrite Es; reflexivity). fold script. assert (Ec : ends_name c = true) by (rewrite stop_iff; assumption). rewrite andb_true_r. rewrite out_quiet by (apply stop_quiet; exact Ec). rewrite (stop_nul c Ec). f_equal. destruct (str_eqb b' script); apply A; try exact N13'; lia.
      * rewrite (run_again _ _ _ _ _ [] ScriptEsc) by (cbn [step]; rewrite Es, Ea; reflexivity). rewrite andb_false_r. cbn [app]. apply EscOk; [cbn [List.length]; lia|exact N13].
Qed.
Lemma dbl_end n : all n -> forall s b b', (List.length s <= S n)%nat -> ~ In 13 s -> forallb is_alpha_ascii b = true -> alow b = b' ->
  (forall s', (List.length s' <= S n)%nat -> ~ In 13 s' -> R ScriptDbl s' = out MDbl s') -> TChar 60 :: TChar 47 :: (chars b ++ R (ScriptDblEnd b') s)%list = out MDbl (60 :: 47 :: b ++ s).
Proof.
  intros A s. induction s as [|c t IH]; intros b b' L N13 Hb Eb DblOk.
  - rewrite (app_nil_r b), dbl_letters_end by exact Hb. cbn [run eof]. rewrite app_nil_r. reflexivity.
  - assert (Nc : c <> 13) by (intros ->; apply N13; left; reflexivity). assert (N13' : ~ In 13 t) by (intros K; apply N13; right; exact K). cbn [List.length] in L. destruct (is_alpha_ascii c) eqn:Ea.
    + destruct (alpha_cases c Ea) as (_ & E1 & E2 & E3 & _). rewrite (run_out _ _ _ _ _ c (ScriptDblEnd (snoc b' (alow_c c)))) by (cbn [step]; rewrite E1, E2, E3, Ea; reflexivity).
      specialize (IH (snoc b c) (snoc b' (alow_c c))). unfold snoc in *. rewrite <- app_assoc in IH. cbn [app] in IH. rewrite <- IH; [rewrite chars_app, <- app_assoc; reflexivity|lia|exact N13'|rewrite forallb_app, Hb; cbn [forallb]; rewrite Ea; reflexivity|unfold alow in *; rewrite map_app, Eb; reflexivity|exact DblOk].
    + rewrite dbl_letters by assumption. f_equal. f_equal. f_equal. rewrite Eb, stop_iff by exact Nc. destruct (ws c || (c =? 47) || (c =? 62)) eqn:Es.
      * rewrite (run_out _ _ _ _ _ c (if str_eqb b' (u "script") then ScriptEsc else ScriptDbl)) by (cbn [step]; rewrite Es; reflexivity). fold script. assert (Ec : ends_name c = true) by (rewrite stop_iff; assumption). rewrite andb_true_r. rewrite out_quiet by (apply stop_quiet; exact Ec). rewrite (stop_nul c Ec). f_equal. destruct (str_eqb b' script); apply A; try exact N13'; lia.
      * rewrite (run_again _ _ _ _ _ [] ScriptDbl) by (cbn [step]; rewrite Es, Ea; reflexivity). rewrite andb_false_r. cbn [app]. apply DblOk; [cbn [List.length]; lia|exact N13].
Qed.
Lemma dash_go m c t : (m = MEsc \/ m = MDbl) -> c <> 45 -> decide script m (45 :: c :: t) = Go.
Proof. intros Hm H. destruct Hm as [-> | ->]; cbn [decide]; change (u "-->") with [45; 45; 62]; cbn [starts]; replace (45 =? c) with false by lia; reflexivity. Qed.
Lemma dash2_go m c t : (m = MEsc \/ m = MDbl) -> c <> 62 -> decide script m (45 :: 45 :: c :: t) = Go.
Proof. intros Hm H. destruct Hm as [-> | ->]; cbn [decide]; change (u "-->") with [45; 45; 62]; cbn [starts]; replace (62 =? c) with false by lia; reflexivity. Qed.
Lemma all_ok n : all n.
Proof.
  induction n as [|n IH]; intros s L N13.
  { destruct s; [repeat split|cbn in L; lia]. }
  destruct s as [|c t]; [repeat split|]. cbn [List.length] in L. assert (Lt : (List.length t <= n)%nat) by lia. assert (N13' : ~ In 13 t) by (intros K; apply N13; right; exact K). destruct (IH t Lt N13') as (D & E & B & ED & EDD & BD & BDD & LD & LE & LB & ES & ESD).
  assert (HD : forall c t, (List.length t <= n)%nat -> ~ In 13 (c :: t) -> R ScriptData (c :: t) = out MData (c :: t)).
  { clear - IH. intros c t Lt N13. assert (N13' : ~ In 13 t) by (intros K; apply N13; right; exact K). destruct (IH t Lt N13') as (D & E & B & ED & EDD & BD & BDD & LD & LE & LB & ES & ESD). destruct (N.eqb_spec c 60) as [->|Nc].
    - rewrite (run_eat _ _ _ _ _ (RawLT RScript)) by reflexivity. exact LD.
    - rewrite (run_out _ _ _ _ _ (nul c) ScriptData) by (cbn [step]; replace (c =? 60) with false by lia; reflexivity). rewrite out_quiet by (unfold quiet; lia). rewrite D. reflexivity. }
  assert (HE : forall c t, (List.length t <= n)%nat -> ~ In 13 (c :: t) -> R ScriptEsc (c :: t) = out MEsc (c :: t)).
  { clear - IH. intros c t Lt N13. assert (N13' : ~ In 13 t) by (intros K; apply N13; right; exact K). destruct (IH t Lt N13') as (D & E & B & ED & EDD & BD & BDD & LD & LE & LB & ES & ESD). destruct (N.eqb_spec c 45) as [->|N45]; [rewrite (run_out _ _ _ _ _ 45 ScriptEscDash) by reflexivity; exact ED|]. destruct (N.eqb_spec c 60) as [->|Nc].
    - rewrite (run_eat _ _ _ _ _ (RawLT RScriptEsc)) by reflexivity. exact LE.
    - rewrite (run_out _ _ _ _ _ (nul c) ScriptEsc) by (cbn [step]; replace (c =? 60) with false by lia; replace (c =? 45) with false by lia; reflexivity). rewrite out_quiet by (unfold quiet; lia). rewrite E. reflexivity. }
  assert (HB : forall c t, (List.length t <= n)%nat -> ~ In 13 (c :: t) -> R ScriptDbl (c :: t) = out MDbl (c :: t)).
  { clear - IH. intros c t Lt N13. assert (N13' : ~ In 13 t) by (intros K; apply N13; right; exact K). destruct (IH t Lt N13') as (D & E & B & ED & EDD & BD & BDD & LD & LE & LB & ES & ESD). destruct (N.eqb_spec c 45) as [->|N45]; [rewrite (run_out _ _ _ _ _ 45 ScriptDblDash) by reflexivity; exact BD|]. destruct (N.eqb_spec c 60) as [->|Nc].
    - rewrite (run_out _ _ _ _ _ 60 ScriptDblLT) by reflexivity. exact LB.
    - rewrite (run_out _ _ _ _ _ (nul c) ScriptDbl) by (cbn [step]; replace (c =? 60) with false by lia; replace (c =? 45) with false by lia; reflexivity). rewrite out_quiet by (unfold quiet; lia). rewrite B. reflexivity. }
  assert (HE' : forall s', (List.length s' <= S n)%nat -> ~ In 13 s' -> R ScriptEsc s' = out MEsc s') by (intros [|x r] K1 K2; [reflexivity|cbn [List.length] in K1; apply HE; [lia|exact K2]]).
  assert (HB' : forall s', (List.length s' <= S n)%nat -> ~ In 13 s' -> R ScriptDbl s' = out MDbl s') by (intros [|x r] K1 K2; [reflexivity|cbn [List.length] in K1; apply HB; [lia|exact K2]]).
  assert (HD' : forall s', (List.length s' <= S n)%nat -> ~ In 13 s' -> R ScriptData s' = out MData s') by (intros [|x r] K1 K2; [reflexivity|cbn [List.length] in K1; apply HD; [lia|exact K2]]).
  assert (L' : (List.length (c :: t) <= S n)%nat) by (cbn [List.length]; lia).
  split; [apply HD; assumption|]. split; [apply HE; assumption|]. split; [apply HB; assumption|].
  split.
  { destruct (N.eqb_spec c 45) as [->|N45]; [rewrite (run_out _ _ _ _ _ 45 ScriptEscDashDash) by reflexivity; exact EDD|]. rewrite out_go by (apply dash_go; [left; reflexivity|exact N45]). f_equal. destruct (N.eqb_spec c 60) as [->|Nc].
    - rewrite (run_eat _ _ _ _ _ (RawLT RScriptEsc)) by reflexivity. exact LE.
    - rewrite (run_out _ _ _ _ _ (nul c) ScriptEsc) by (cbn [step]; replace (c =? 60) with false by lia; replace (c =? 45) with false by lia; reflexivity). rewrite out_quiet by (unfold quiet; lia). rewrite E. reflexivity. }
  split.
  { destruct (N.eqb_spec c 45) as [->|N45]; [rewrite (run_out _ _ _ _ _ 45 ScriptEscDashDash) by reflexivity; rewrite out_go by (apply dash2_go; [left; reflexivity|discriminate]); rewrite <- EDD; reflexivity|].
    destruct (N.eqb_spec c 62) as [->|N62]; [rewrite (run_out _ _ _ _ _ 62 ScriptData) by reflexivity; pose proof (out_jump MEsc MData 45 [45; 62] t eq_refl) as J; cbn [app] in J; rewrite J, D; reflexivity|].
    rewrite out_go by (apply dash2_go; [left; reflexivity|exact N62]). rewrite out_go by (apply dash_go; [left; reflexivity|exact N45]). f_equal. f_equal. destruct (N.eqb_spec c 60) as [->|Nc].
    - rewrite (run_eat _ _ _ _ _ (RawLT RScriptEsc)) by reflexivity. exact LE.
    - rewrite (run_out _ _ _ _ _ (nul c) ScriptEsc) by (cbn [step]; replace (c =? 60) with false by lia; replace (c =? 45) with false by lia; replace (c =? 62) with false by lia; reflexivity). rewrite out_quiet by (unfold quiet; lia). rewrite E. reflexivity. }
  split.
  { destruct (N.eqb_spec c 45) as [->|N45]; [rewrite (run_out _ _ _ _ _ 45 ScriptDblDashDash) by reflexivity; exact BDD|]. rewrite out_go by (apply dash_go; [right; reflexivity|exact N45]). f_equal. destruct (N.eqb_spec c 60) as [->|Nc].
    - rewrite (run_out _ _ _ _ _ 60 ScriptDblLT) by reflexivity. exact LB.
    - rewrite (run_out _ _ _ _ _ (nul c) ScriptDbl) by (cbn [step]; replace (c =? 60) with false by lia; replace (c =? 45) with false by lia; reflexivity). rewrite out_quiet by (unfold quiet; lia). rewrite B. reflexivity. }
  split.
  { destruct (N.eqb_spec c 45) as [->|N45]; [rewrite (run_out _ _ _ _ _ 45 ScriptDblDashDash) by reflexivity; rewrite out_go by (apply dash2_go; [right; reflexivity|discriminate]); rewrite <- BDD; reflexivity|].
    destruct (N.eqb_spec c 62) as [->|N62]; [rewrite (run_out _ _ _ _ _ 62 ScriptData) by reflexivity; pose proof (out_jump MDbl MData 45 [45; 62] t eq_refl) as J; cbn [app] in J; rewrite J, D; reflexivity|].
    rewrite out_go by (apply dash2_go; [right; reflexivity|exact N62]). rewrite out_go by (apply dash_go; [right; reflexivity|exact N45]). f_equal. f_equal. destruct (N.eqb_spec c 60) as [->|Nc].
    - rewrite (run_out _ _ _ _ _ 60 ScriptDblLT) by reflexivity. exact LB.
    - rewrite (run_out _ _ _ _ _ (nul c) ScriptDbl) by (cbn [step]; replace (c =? 60) with false by lia; replace (c =? 45) with false by lia; replace (c =? 62) with false by lia; reflexivity). rewrite out_quiet by (unfold quiet; lia). rewrite B. reflexivity. }
  split.
  { destruct (N.eqb_spec c 47) as [->|N47].
    - rewrite (run_eat _ _ _ _ _ (RawEndOpen RScript)) by reflexivity. apply (end_open_ok script sc sname_ok sname_ne n RScript RScript); [discriminate|intros s Ls Ns; apply IH; assumption|lia|exact N13'].
    - destruct (N.eqb_spec c 33) as [->|N33].
      + rewrite (run_eatn _ _ _ _ _ [TChar 60; TChar 33] O ScriptEscStart) by reflexivity. exact ES.
      + rewrite (run_again _ _ _ _ _ [TChar 60] ScriptData) by (cbn [step]; replace (c =? 47) with false by lia; replace (c =? 33) with false by lia; reflexivity). rewrite HD by assumption. rewrite (out_go MData 60); [reflexivity|]. cbn [decide]. rewrite tag_slash by exact N47. change (u "<!--") with [60; 33; 45; 45]. cbn [starts]. replace (33 =? c) with false by lia. reflexivity. }
  split.
  { destruct (N.eqb_spec c 47) as [->|N47].
    - rewrite (run_eat _ _ _ _ _ (RawEndOpen RScriptEsc)) by reflexivity. apply (end_open_ok script sc sname_ok sname_ne n RScriptEsc RScript); [discriminate|intros s Ls Ns; apply IH; assumption|lia|exact N13'].
    - destruct (is_alpha_ascii c) eqn:Ea.
      + rewrite (run_again _ _ _ _ _ [TChar 60] (ScriptDblStart [])) by (cbn [step]; replace (c =? 47) with false by lia; rewrite Ea; reflexivity). apply (dbl_start n IH (c :: t) [] [] L' N13 eq_refl eq_refl); [intros _; exact Ea|exact HE'].
      + rewrite (run_again _ _ _ _ _ [TChar 60] ScriptEsc) by (cbn [step]; replace (c =? 47) with false by lia; rewrite Ea; reflexivity). rewrite HE by assumption. rewrite (out_go MEsc 60); [reflexivity|]. apply esc_lt; assumption. }
  split.
  { destruct (N.eqb_spec c 47) as [->|N47].
    - rewrite (run_out _ _ _ _ _ 47 (ScriptDblEnd [])) by reflexivity. apply (dbl_end n IH t [] [] ltac:(lia) N13' eq_refl eq_refl HB').
    - rewrite (run_again _ _ _ _ _ [] ScriptDbl) by (cbn [step]; replace (c =? 47) with false by lia; reflexivity). cbn [app]. rewrite HB by assumption. rewrite (out_go MDbl 60); [reflexivity|]. cbn [decide]. rewrite stag_eq, tag_slash by exact N47. reflexivity. }
  split.
  { destruct (N.eqb_spec c 45) as [->|N45]; [rewrite (run_out _ _ _ _ _ 45 ScriptEscStartDash) by reflexivity; exact ESD|].
    rewrite (run_again _ _ _ _ _ [] ScriptData) by (cbn [step]; replace (c =? 45) with false by lia; reflexivity). cbn [app]. rewrite HD by assumption. rewrite (out_go MData 60); [rewrite (out_quiet MData 33) by reflexivity; reflexivity|]. cbn [decide]. rewrite tag_slash by discriminate. change (u "<!--") with [60; 33; 45; 45]. cbn [starts]. replace (45 =? c) with false by lia. reflexivity. }
  { destruct (N.eqb_spec c 45) as [->|N45].
    - rewrite (run_out _ _ _ _ _ 45 ScriptEscDashDash) by reflexivity. pose proof (out_jump MData MEsc 60 [33] (45 :: 45 :: t) eq_refl) as J. cbn [app] in J. rewrite J. rewrite <- EDD. reflexivity.
    - rewrite (run_again _ _ _ _ _ [] ScriptData) by (cbn [step]; replace (c =? 45) with false by lia; reflexivity). cbn [app]. rewrite HD by assumption. rewrite (out_go MData 60); [rewrite (out_quiet MData 33), (out_quiet MData 45) by reflexivity; reflexivity|]. cbn [decide]. rewrite tag_slash by discriminate. change (u "<!--") with [60; 33; 45; 45]. cbn [starts]. replace (45 =? c) with false by lia. rewrite !andb_false_r. reflexivity. }
Qed.
Lemma script_run s : ~ In 13 s -> R ScriptData s = out MData s.
Proof. intros H. apply (all_ok (List.length s) s (le_n _) H). Qed.
End Script.
