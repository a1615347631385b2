(* PROOFS: the pretty printer, part 2: the line templates *)
From Coq Require Import Lia ZifyBool ZifyN ZifyNat ZArith.
From Verif Require Import ListFacts Str StrFacts HtmlCharRefSpec HtmlTokSpec TokFacts RawTextSpec SerializerModel SerTreeSpec
  SerEscapeProofs SerCommentProofs SerRawProofs SerTreeProofs MiscModel PrettyModel PrettySpec PrettyProofs.
From Verif Require MiscSpaceProofs.
Open Scope list_scope. Open Scope N_scope.

(* ---------- the solid characters of texts ---------- *)
Lemma sol_app a b : filter sol (a ++ b) = filter sol a ++ filter sol b. Proof. apply filter_app. Qed.
Lemma sol_space d : forallb is_space d = true -> filter sol d = [].
Proof. induction d as [|c d IH]; [reflexivity|]. cbn [forallb filter]. intros H. apply andb_prop in H as [A B]. unfold sol at 1. rewrite A. apply IH, B. Qed.
Lemma sol_strip d : filter sol (strip d) = filter sol d.
Proof.
  destruct (strip_split is_space d) as (a & b & E & A & B). unfold strip. rewrite E at 2. rewrite !sol_app, (sol_space a A), (sol_space b B), app_nil_r. reflexivity.
Qed.
Lemma blank_sol d : blank d = true -> filter sol d = [].
Proof. unfold blank. rewrite <- sol_strip. destruct (strip d); [reflexivity|discriminate]. Qed.
Lemma html_space_space c : is_html_space c = true -> is_space c = true.
Proof. unfold is_html_space. intros H. repeat (apply orb_prop in H as [H|H]; [|apply N.eqb_eq in H as ->; reflexivity]). apply N.eqb_eq in H as ->. reflexivity. Qed.
Lemma sol_weaken a b : filter MiscSpaceProofs.solid a = filter MiscSpaceProofs.solid b -> filter sol a = filter sol b.
Proof.
  intros H. assert (K : forall l, filter sol l = filter sol (filter MiscSpaceProofs.solid l)).
  { induction l as [|c l IH]; [reflexivity|]. cbn [filter]. unfold MiscSpaceProofs.solid at 1. destruct (is_html_space c) eqn:E; cbn [negb].
    - unfold sol at 1. rewrite (html_space_space c E). cbn [negb]. exact IH.
    - cbn [filter]. rewrite IH. reflexivity. }
  rewrite (K a), (K b), H. reflexivity.
Qed.
Lemma sol_normalize d : filter sol (normalize_formatting d) = filter sol d.
Proof. apply sol_weaken, MiscSpaceProofs.normalize_keeps. Qed.
Lemma sol_join ws : filter sol (join (u " ") ws) = filter sol (List.concat ws).
Proof.
  induction ws as [|w ws IH]; [reflexivity|]. destruct ws as [|v ws]; [cbn; rewrite app_nil_r; reflexivity|].
  change (join (u " ") (w :: v :: ws)) with (w ++ u " " ++ join (u " ") (v :: ws)). cbn [List.concat] in *. rewrite !sol_app in *. rewrite IH. reflexivity.
Qed.
Lemma sol_split_go s : forall acc, filter sol (List.concat (split_by_go is_space acc s)) = filter sol (rev acc ++ s).
Proof.
  induction s as [|c s IH]; intros acc.
  - cbn [split_by_go]. rewrite app_nil_r. destruct acc; cbn [List.concat]; rewrite ?app_nil_r; reflexivity.
  - cbn [split_by_go]. destruct (is_space c) eqn:E.
    + rewrite !sol_app. cbn [filter]. unfold sol at 3. rewrite E. cbn [negb]. destruct acc as [|a acc]; [cbn [rev app filter]; apply IH|]. cbn [List.concat]. rewrite sol_app, IH. reflexivity.
    + rewrite IH. cbn [rev]. rewrite <- app_assoc. reflexivity.
Qed.
Lemma sol_collapse d : filter sol (collapse_html d) = filter sol d.
Proof.
  unfold collapse_html. destruct d as [|c d]; [reflexivity|]. set (t := c :: d). clearbody t. destruct (mem 11 t).
  - transitivity (filter sol (collapse_loop false t)); [|apply sol_weaken, MiscSpaceProofs.loop_keeps].
    destruct (strip_split (fun c => mem c (u " ")) (collapse_loop false t)) as (a & b & E & A & B). unfold strip_chars. rewrite E at 2.
    assert (K : forall l, forallb (fun c => mem c (u " ")) l = true -> filter sol l = []).
    { intros l H. apply sol_space. apply forallb_forall. intros x I. rewrite forallb_forall in H. specialize (H x I). apply mem_In in H. cbn in H. destruct H as [<-|[]]. reflexivity. }
    rewrite !sol_app, (K a A), (K b B), app_nil_r. reflexivity.
  - rewrite sol_join. unfold split_ws. rewrite sol_split_go. reflexivity.
Qed.

Section Layout.
Variable strict sc : bool.
Variable q : parent_info.
Hypothesis Hq : okparent sc q.
Notation view := (view strict). Notation balanced := (balanced strict). Notation good := (good strict sc).

(* the nodes [l] serialized one after the other read as the tokens *)
Inductive SL : list node -> list token -> Prop :=
| SL_nil : SL [] []
| SL_cons n l a ta tb : ser n q = Some a -> reads sc a ta -> balanced ta -> SL l tb -> SL (n :: l) (ta ++ tb).
Lemma SL_sers l tc : SL l tc -> exists c, sers l q = Some c /\ reads sc c tc /\ balanced tc.
Proof.
  induction 1 as [|n l a ta tb A R B H (c & C & D & E)].
  - exists []. split; [reflexivity|]. split; [intros last rest; apply data_last|apply bal_nil].
  - exists (a ++ c). cbn [sers]. rewrite A, C. split; [reflexivity|]. split; [apply reads_app; assumption|apply bal_app; assumption].
Qed.
Lemma SL_bal l tc : SL l tc -> balanced tc.
Proof. intros H. destruct (SL_sers l tc H) as (c & _ & _ & E). exact E. Qed.
Lemma SL_app a b ta tb : SL a ta -> SL b tb -> SL (a ++ b) (ta ++ tb).
Proof. induction 1 as [|n l x tx ty A R B H IH]; intros K; [exact K|]. rewrite <- app_assoc. cbn [app]. exact (SL_cons n (l ++ b) x tx (ty ++ tb) A R B (IH K)). Qed.
Lemma text_ser d : ser (NText d) q = Some (flat_map esc1 d).
Proof.
  cbn [ser]. f_equal. rewrite <- escape_text_flat. destruct q as [[name ns]|]; [destruct Hq; apply (text_in_data sc); auto|]. destruct d; reflexivity.
Qed.
Lemma SL_text d : SL [NText d] (chars d).
Proof. rewrite <- (app_nil_r (chars d)). apply (SL_cons _ _ (flat_map esc1 d)); [apply text_ser|exact (okp_reads strict sc (PT d) Logic.I)|apply bal_chars|constructor]. Qed.
Lemma view0_app a b : balanced a -> view 0 (a ++ b) = view 0 a ++ view 0 b. Proof. intros H. apply H. Qed.

Definition Res (l : list node) (s : str) : Prop := exists tc ts, SL l tc /\ good s ts /\ view 0 ts = view 0 tc.
Lemma Res_nil : Res [] []. Proof. exists [], []. repeat split; [constructor|apply good_nil]. Qed.
Lemma Res_app a b s t : Res a s -> Res b t -> Res (a ++ b) (s ++ t).
Proof.
  intros (ta & sa & A & B & C) (tb & sb & D & E & F). exists (ta ++ tb), (sa ++ sb). split; [apply SL_app; assumption|]. split; [apply good_app; assumption|].
  rewrite !view0_app; [congruence|exact (SL_bal _ _ A)|exact (good_bal _ _ _ _ B)].
Qed.
Lemma Res_blank b : bl b -> Res [] b.
Proof. intros H. exists [], (chars b). split; [constructor|]. split; [apply good_bl, H|apply bl_view, H]. Qed.
Lemma Res_strip l s : Res l s -> Res l (strip_chars (u " ") s).
Proof. intros (tc & ts & A & B & C). destruct (strip_good _ _ _ _ B) as (t2 & D & E). exists tc, t2. split; [exact A|]. split; [exact D|congruence]. Qed.
Lemma Res_text d d' : filter sol d' = filter sol d -> Res [NText d] (flat_map esc1 d').
Proof. intros H. exists (chars d), (chars d'). split; [apply SL_text|]. split; [apply good_text|apply view_same, H]. Qed.
Definition hush (n : node) : Prop := exists d, n = NText d /\ filter sol d = [].
Lemma Res_hush n : hush n -> Res [n] [].
Proof. intros (d & -> & H). exact (Res_text d [] (eq_sym H)). Qed.
Lemma blank_hush n : blank_text n = true -> hush n.
Proof. destruct n as [d|d|d|d|cs|name ns attrs cs tc]; try discriminate. intros H. exists d. split; [reflexivity|apply blank_sol, H]. Qed.

(* ---------- leaving out white space ---------- *)
Inductive sub : list kid -> list kid -> Prop :=
| sub_nil : sub [] []
| sub_keep k a b : sub a b -> sub (k :: a) (k :: b)
| sub_drop k a b : hush (fst k) -> sub a b -> sub a (k :: b).
Lemma sub_refl a : sub a a. Proof. induction a; constructor; assumption. Qed.
Lemma sub_SL a b : sub a b -> forall tc, SL (map fst a) tc -> exists tc', SL (map fst b) tc' /\ view 0 tc' = view 0 tc.
Proof.
  induction 1 as [|k a b H IH|k a b (d & E & D) H IH]; intros tc S.
  - exists tc. split; [exact S|reflexivity].
  - inversion S as [|n l x ta tb A R B K]; subst. destruct (IH tb K) as (t & T & V). exists (ta ++ t). split; [exact (SL_cons _ _ _ _ _ A R B T)|]. rewrite !view0_app by exact B. congruence.
  - destruct (IH tc S) as (t & T & V). exists (chars d ++ t). split; [cbn [map]; rewrite E; exact (SL_app [NText d] _ _ _ (SL_text d) T)|]. rewrite view0_app by apply bal_chars. rewrite (view_same strict d [] D). exact V.
Qed.
Lemma sub_Res a b s : sub a b -> Res (map fst a) s -> Res (map fst b) s.
Proof. intros H (tc & ts & A & B & C). destruct (sub_SL a b H tc A) as (t & T & V). exists t, ts. split; [exact T|]. split; [exact B|congruence]. Qed.
Lemma sub_filter p kids : (forall k, In k kids -> p k = false -> hush (fst k)) -> sub (filter p kids) kids.
Proof.
  induction kids as [|k kids IH]; intros H; [constructor|]. cbn [filter]. destruct (p k) eqn:E; constructor; try (apply IH; intros x I; apply H; right; exact I). apply H; [left; reflexivity|exact E].
Qed.

(* ---------- parts and lines ---------- *)
Definition KI (k : kid) : Prop := forall ind pre s, snd k ind pre = Some s ->
  exists c tc ts, ser (fst k) q = Some c /\ reads sc c tc /\ balanced tc /\ good s ts /\ (pre = true -> ts = tc) /\ view 0 ts = view 0 tc.
Lemma kid_SL n c tc : ser n q = Some c -> reads sc c tc -> balanced tc -> SL [n] tc.
Proof. intros A B C. rewrite <- (app_nil_r tc). exact (SL_cons _ _ _ _ _ A B C SL_nil). Qed.
Lemma kid_res k ind s : KI k -> snd k ind false = Some s -> Res [fst k] s.
Proof. intros H E. destruct (H ind false s E) as (c & tc & ts & A & B & C & D & _ & F). exists tc, ts. split; [exact (kid_SL _ _ _ A B C)|]. split; assumption. Qed.
Definition PR (ps : list part) (l : list node) : Prop := forall s, eval_parts ps = Some s -> Res l s.
Definition LR (ls : list line) (l : list node) : Prop := forall skip s, eval_lines skip ls = Some s -> Res l s.
Lemma opt_cat_inv a b s : opt_cat a b = Some s -> exists x y, a = Some x /\ b = Some y /\ s = x ++ y.
Proof. destruct a as [x|], b as [y|]; try discriminate. intros H. injection H as <-. exists x, y. auto. Qed.
Lemma PR_nil : PR [] []. Proof. intros s E. injection E as <-. apply Res_nil. Qed.
Lemma PR_cons p ps a b : (forall s, eval_part p = Some s -> Res a s) -> PR ps b -> PR (p :: ps) (a ++ b).
Proof. intros A B s E. cbn [eval_parts] in E. apply opt_cat_inv in E as (x & y & Ex & Ey & ->). apply Res_app; [exact (A x Ex)|exact (B y Ey)]. Qed.
Lemma eval_parts_app ps ps' : eval_parts (ps ++ ps') = opt_cat (eval_parts ps) (eval_parts ps').
Proof.
  induction ps as [|p ps IH]; [cbn; destruct (eval_parts ps'); reflexivity|]. cbn [app eval_parts]. rewrite IH. destruct (eval_part p), (eval_parts ps), (eval_parts ps'); try reflexivity. cbn. rewrite app_assoc. reflexivity.
Qed.
Lemma PR_app ps ps' a b : PR ps a -> PR ps' b -> PR (ps ++ ps') (a ++ b).
Proof. intros A B s E. rewrite eval_parts_app in E. apply opt_cat_inv in E as (x & y & Ex & Ey & ->). apply Res_app; [exact (A x Ex)|exact (B y Ey)]. Qed.
Lemma PR_one p a : (forall s, eval_part p = Some s -> Res a s) -> PR [p] a.
Proof. intros H. rewrite <- (app_nil_r a). apply PR_cons; [exact H|exact PR_nil]. Qed.
Lemma PR_child k ind : KI k -> PR [Child (snd k) ind] [fst k].
Proof. intros H. apply PR_one. intros s E. exact (kid_res k ind s H E). Qed.
Lemma PR_hush ps l n : PR ps l -> hush n -> PR ps (l ++ [n]).
Proof. intros A B s E. rewrite <- (app_nil_r s). apply Res_app; [exact (A s E)|exact (Res_hush n B)]. Qed.
Lemma PR_lit d d' : filter sol d' = filter sol d -> PR [Lit (flat_map esc1 d')] [NText d].
Proof. intros H. apply PR_one. intros s E. injection E as <-. exact (Res_text d d' H). Qed.
Lemma esc_space d : forallb is_space d = true -> flat_map esc1 d = d.
Proof.
  induction d as [|c d IH]; [reflexivity|]. cbn [forallb flat_map]. intros H. apply andb_prop in H as [A B]. rewrite (IH B). assert (E : esc1 c = [c]); [|rewrite E; reflexivity].
  unfold esc1. destruct (N.eqb_spec c 38) as [->|]; [discriminate A|]. destruct (N.eqb_spec c 60) as [->|]; [discriminate A|]. destruct (N.eqb_spec c 62) as [->|]; [discriminate A|]. reflexivity.
Qed.
Lemma blank_forall d : blank d = true -> forallb is_space d = true.
Proof.
  unfold blank, strip. destruct (strip_split is_space d) as (a & b & E & A & B). destruct (strip_by is_space d); [|discriminate]. intros _. rewrite E. cbn [app]. rewrite forallb_app, A, B. reflexivity.
Qed.
Lemma PR_blank d : blank d = true -> PR [Lit d] [NText d].
Proof. intros H. rewrite <- (esc_space d (blank_forall d H)) at 1. apply PR_lit. reflexivity. Qed.
Lemma PR_norm d : PR [Lit (escape_text (normalize_formatting d))] [NText d].
Proof. rewrite escape_text_flat. apply PR_lit, sol_normalize. Qed.
Lemma PR_space d : blank d = true -> PR [Lit [32]] [NText d].
Proof. intros H. apply (PR_lit d [32]). rewrite (blank_sol d H). reflexivity. Qed.

Lemma LR_nil : LR [] []. Proof. intros skip s E. injection E as <-. apply Res_nil. Qed.
Lemma LR_cons prefix ps strip a ls b : bl prefix -> PR ps a -> LR ls b -> LR ((prefix, ps, strip) :: ls) (a ++ b).
Proof.
  intros P A B skip s E. cbn [eval_lines] in E. destruct (eval_parts ps) as [x|] eqn:Ex; [|discriminate E]. apply opt_cat_inv in E as (l & y & El & Ey & ->). injection El as <-.
  apply Res_app; [|exact (B skip y Ey)]. specialize (A x Ex). set (x' := if strip then strip_chars (u " ") x else x).
  assert (A' : Res a x') by (unfold x'; destruct strip; [apply Res_strip, A|exact A]). clearbody x'.
  assert (K : Res a (10 :: prefix ++ x')).
  { change (10 :: prefix ++ x') with ((10 :: prefix) ++ x'). change a with ([] ++ a). apply Res_app; [|exact A']. apply Res_blank. intros c [<-|I]; [right; reflexivity|exact (P c I)]. }
  destruct x' as [|c x']; cbn [orb]; [|exact K]. destruct (negb skip); [exact K|exact A'].
Qed.
Lemma LR_app ls ls' a b : LR ls a -> LR ls' b -> LR (ls ++ ls') (a ++ b).
Proof.
  intros A B skip s E. assert (K : forall l s, eval_lines skip (l ++ ls') = Some s -> exists x y, eval_lines skip l = Some x /\ eval_lines skip ls' = Some y /\ s = x ++ y).
  { clear. induction l as [|[[p ps] st] l IH]; intros s E; [exists [], s; auto|]. cbn [app eval_lines] in *. destruct (eval_parts ps) as [x|]; [|discriminate E]. apply opt_cat_inv in E as (h & y & Eh & Ey & ->). destruct (IH y Ey) as (y1 & y2 & E1 & E2 & ->). rewrite E1. exists (h ++ y1), y2. split; [injection Eh as <-; reflexivity|]. split; [exact E2|apply app_assoc]. }
  destruct (K ls s E) as (x & y & Ex & Ey & ->). apply Res_app; [exact (A skip x Ex)|exact (B skip y Ey)].
Qed.
Lemma LR_hush ls l n : hush n -> LR ls l -> LR ls (n :: l).
Proof. intros A B skip s E. exact (Res_app [n] l [] s (Res_hush n A) (B skip s E)). Qed.
Lemma LR_kids ind kids : Forall KI kids -> LR (map (fun k => ([], [Child (snd k) ind], false)) kids) (map fst kids).
Proof.
  induction 1 as [|k kids K H IH]; [exact LR_nil|]. cbn [map]. apply (LR_cons [] _ false [fst k]); [intros c []|exact (PR_child k ind K)|exact IH].
Qed.
Lemma LR_sub ls a b : sub a b -> LR ls (map fst a) -> LR ls (map fst b).
Proof. intros A B skip s E. exact (sub_Res a b s A (B skip s E)). Qed.
Lemma Forall_filter {A} (P : A -> Prop) f l : Forall P l -> Forall P (filter f l).
Proof. induction 1 as [|x l H K IH]; [constructor|]. cbn [filter]. destruct (f x); [constructor; assumption|exact IH]. Qed.

Lemma flush_LR ind size inl l0 ls l : PR (rev inl) l0 -> LR ls l -> LR (flush ind size inl ++ ls) (l0 ++ l).
Proof.
  intros A B. destruct inl as [|p inl].
  - cbn [flush app]. intros skip s E. apply (Res_app l0 l [] s); [exact (A [] eq_refl)|exact (B skip s E)].
  - apply (LR_cons _ _ true l0); [apply bl_indent|exact A|exact B].
Qed.
Lemma mixed_LR ind size kids : Forall KI kids -> forall first inl l0, PR (rev inl) l0 -> LR (mixed_lines ind size first inl kids) (l0 ++ map fst kids).
Proof.
  induction 1 as [|k kids K H IH]; intros first inl l0 P.
  - cbn [mixed_lines map]. pose proof (flush_LR ind size inl l0 [] [] P LR_nil) as Q. rewrite app_nil_r in Q. exact Q.
  - assert (Step : forall p l', PR [p] l' -> PR (rev (p :: inl)) (l0 ++ l')) by (intros p l' Q; cbn [rev]; apply PR_app; assumption).
    assert (St2 : forall n b p, PR [p] [n] -> LR (mixed_lines ind size b (p :: inl) kids) (l0 ++ n :: map fst kids)).
    { intros n b p Q. change (n :: map fst kids) with ([n] ++ map fst kids). rewrite app_assoc. apply IH, Step, Q. }
    assert (Oth : LR (if is_layout_blocky (fst k)
      then flush ind size inl ++ ([], [Child (snd k) (ind + 1)%Z], false) :: mixed_lines ind size false [] kids
      else mixed_lines ind size false (Child (snd k) 0%Z :: inl) kids) (l0 ++ fst k :: map fst kids)).
    { destruct (is_layout_blocky (fst k)); [|apply St2, PR_child, K]. apply flush_LR; [exact P|]. apply (LR_cons [] _ false [fst k]); [intros c []|exact (PR_child k _ K)|]. exact (IH false [] [] PR_nil). }
    cbn [mixed_lines map]. destruct (fst k) as [d|d|d|d|cs|name ns attrs cs tc] eqn:E; try exact Oth.
    destruct (blank d) eqn:B; [|apply St2, PR_norm].
    assert (Hh : hush (NText d)) by (apply blank_hush; exact B).
    destruct (first || is_nil kids).
    { change (NText d :: map fst kids) with ([NText d] ++ map fst kids). rewrite app_assoc. apply IH, PR_hush; assumption. }
    destruct (line_space d); [|apply St2, PR_blank, B]. apply flush_LR; [exact P|]. apply LR_hush; [exact Hh|]. exact (IH false [] [] PR_nil).
Qed.
Lemma compact_PR kids : Forall KI kids -> forall first, PR (compact_parts first kids) (map fst kids).
Proof.
  induction 1 as [|k kids K H IH]; intros first; [exact PR_nil|]. cbn [compact_parts map].
  destruct (fst k) as [d|d|d|d|cs|name ns attrs cs tc] eqn:E; try (rewrite <- E; exact (PR_app [Child (snd k) 0%Z] _ [fst k] _ (PR_child k _ K) (IH false))).
  destruct (blank d && (first || is_nil kids)) eqn:B1.
  { apply andb_prop in B1 as [B1 _]. intros s Es. exact (Res_app [NText d] _ [] s (Res_hush _ (blank_hush (NText d) B1)) (IH false s Es)). }
  destruct (blank d && line_space d) eqn:B2.
  - apply andb_prop in B2 as [B2 _]. exact (PR_app [Lit [32]] _ [NText d] _ (PR_space d B2) (IH false)).
  - exact (PR_app [Lit _] _ [NText d] _ (PR_norm d) (IH false)).
Qed.
Lemma element_LR ind size kids : Forall KI kids -> (forall k, In k kids -> renders_nonempty (fst k) = false -> hush (fst k)) -> LR (flat_map (element_line ind size) kids) (map fst kids).
Proof.
  induction 1 as [|k kids K H IH]; intros R; [exact LR_nil|]. specialize (IH (fun x I => R x (or_intror I))). specialize (R k (or_introl eq_refl)). cbn [flat_map map].
  change (fst k :: map fst kids) with ([fst k] ++ map fst kids). apply LR_app; [|exact IH]. unfold element_line.
  assert (Oth : LR (if renders_nonempty (fst k) then [([], [Child (snd k) (ind + 1)%Z], false)] else []) [fst k]).
  { destruct (renders_nonempty (fst k)) eqn:Er; [apply (LR_cons [] _ false [fst k] [] []); [intros c []|exact (PR_child k _ K)|exact LR_nil]|]. apply LR_hush; [exact (R eq_refl)|exact LR_nil]. }
  destruct (fst k) as [d|d|d|d|cs|name ns attrs cs tc] eqn:E; try exact Oth.
  pose proof (sol_collapse d) as C. destruct (collapse_html d) as [|c t]; [apply LR_hush; [exists d; split; [reflexivity|symmetry; exact C]|exact LR_nil]|].
  apply (LR_cons _ _ false [NText d] [] []); [apply bl_indent| |exact LR_nil]. rewrite escape_text_flat. apply PR_lit, C.
Qed.

(* ---------- the runs ---------- *)
Fixpoint somes (l : list (option kid)) : list kid := match l with [] => [] | Some k :: t => k :: somes t | None :: t => somes t end.
Lemma somes_app a b : somes (a ++ b) = somes a ++ somes b.
Proof. induction a as [|[k|] a IH]; [reflexivity| |exact IH]. cbn [app somes]. rewrite IH. reflexivity. Qed.
Lemma somes_rev l : somes (rev l) = rev (somes l).
Proof. induction l as [|[k|] l IH]; [reflexivity| |]; cbn [rev somes]; rewrite somes_app, IH; [reflexivity|apply app_nil_r]. Qed.
Lemma somes_drop l : somes (drop_seps l) = somes l.
Proof. induction l as [|[k|] l IH]; [reflexivity|reflexivity|exact IH]. Qed.
Lemma to_runs_concat l : forall cur, List.concat (to_runs cur l) = rev cur ++ somes l.
Proof.
  induction l as [|[k|] l IH]; intros cur; cbn [to_runs List.concat somes].
  - rewrite !app_nil_r. reflexivity.
  - rewrite IH. cbn [rev]. rewrite <- app_assoc. reflexivity.
  - rewrite IH. reflexivity.
Qed.
Lemma concat_nonempty {A} (l : list (list A)) : List.concat (filter (fun r => negb (is_nil r)) l) = List.concat l.
Proof. induction l as [|[|x r] l IH]; [reflexivity|exact IH|]. cbn [filter is_nil negb List.concat]. rewrite IH. reflexivity. Qed.
Lemma items_sub kids : forall b, sub (somes (to_items b kids)) kids.
Proof.
  induction kids as [|k kids IH]; intros b; [constructor|]. cbn [to_items].
  destruct (fst k) as [d|d|d|d|cs|name ns attrs cs tc] eqn:E; try (cbn [somes]; constructor; apply IH).
  destruct (blank d && formatting_whitespace d) eqn:B; [|cbn [somes]; constructor; apply IH]. apply andb_prop in B as [B _].
  assert (Hk : hush (fst k)) by (rewrite E; apply blank_hush; exact B). destruct b; cbn [somes]; constructor; try exact Hk; apply IH.
Qed.
Lemma runs_sub kids : sub (List.concat (runs kids)) kids.
Proof.
  unfold runs. rewrite concat_nonempty, to_runs_concat. cbn [rev app]. rewrite somes_rev, somes_drop, somes_rev, somes_drop, rev_involutive. apply items_sub.
Qed.
Lemma sub_In a b : sub a b -> forall x, In x a -> In x b.
Proof. induction 1 as [|k a b H IH|k a b Hk H IH]; intros x I; [exact I| |right; apply IH, I]. destruct I as [<-|I]; [left; reflexivity|right; apply IH, I]. Qed.
Lemma run_part_PR k : KI k -> PR [run_part k] [fst k].
Proof.
  intros K. unfold run_part. destruct (fst k) as [d|d|d|d|cs|name ns attrs cs tc] eqn:E; try (rewrite <- E; exact (PR_child k _ K)). destruct (blank d) eqn:B; [exact (PR_blank d B)|exact (PR_norm d)].
Qed.
Lemma run_parts_PR run : Forall KI run -> PR (map run_part run) (map fst run).
Proof. induction 1 as [|k run K H IH]; [exact PR_nil|]. exact (PR_app [run_part k] _ [fst k] _ (run_part_PR k K) IH). Qed.
Lemma run_line_LR ind size run ln : Forall KI run -> run_line ind size run = Some ln -> forall ls l, LR ls l -> LR (ln :: ls) (map fst run ++ l).
Proof.
  intros K E ls l L. unfold run_line in E. destruct (_ && _); [discriminate E|].
  assert (Gen : forall s, bl s -> LR ((s, map run_part run, false) :: ls) (map fst run ++ l)) by (intros s B; apply LR_cons; [exact B|exact (run_parts_PR run K)|exact L]).
  destruct run as [|[n r] [|k2 run]]; [injection E as <-; apply (Gen _ (bl_indent _ _))| |destruct n; injection E as <-; apply (Gen _ (bl_indent _ _))].
  inversion K as [|? ? Kk _]; subst. assert (One : LR (([], [Child r (ind + 1)%Z], false) :: ls) ([n] ++ l)).
  { apply (LR_cons [] _ false [n]); [intros c []|exact (PR_child (n, r) _ Kk)|exact L]. }
  destruct n; injection E as <-; try exact One. apply (Gen _ (bl_indent _ _)).
Qed.
Lemma run_lines_LR ind size rs : Forall (Forall KI) rs -> forall ls, run_lines ind size rs = Some ls -> LR ls (map fst (List.concat rs)).
Proof.
  induction 1 as [|r rs K H IH]; intros ls E; cbn [run_lines] in E; [injection E as <-; exact LR_nil|].
  destruct (run_line ind size r) as [ln|] eqn:E1; [|discriminate E]. destruct (run_lines ind size rs) as [l|]; [|discriminate E]. injection E as <-.
  cbn [List.concat]. rewrite map_app. exact (run_line_LR ind size r ln K E1 l _ (IH l eq_refl)).
Qed.
Lemma runs_LR ind size kids ls : Forall KI kids -> run_lines ind size (runs kids) = Some ls -> LR ls (map fst kids).
Proof.
  intros K E. apply (LR_sub ls (List.concat (runs kids)) kids (runs_sub kids)). apply (run_lines_LR ind size); [|exact E].
  apply Forall_forall. intros r Ir. apply Forall_forall. intros k Ik. rewrite Forall_forall in K. apply K. apply (sub_In _ _ (runs_sub kids)). apply in_concat. exists r. split; assumption.
Qed.

(* ---------- the layouts of an element ---------- *)
Definition plainkids (kids : list kid) : Prop := forall k, In k kids -> renders_nonempty (fst k) = false -> hush (fst k).
Lemma special_lines_LR ind size kids ls : Forall KI kids -> plainkids kids -> special_lines ind size kids = Some ls -> LR ls (map fst kids).
Proof.
  intros K P E. unfold special_lines in E. destruct (_ && _).
  - injection E as <-. apply (LR_sub _ (filter (fun k => negb (blank_text (fst k)) && renders_nonempty (fst k)) kids)).
    + apply sub_filter. intros k I F. apply andb_false_iff in F as [F|F]; [apply blank_hush; apply negb_false_iff in F; exact F|exact (P k I F)].
    + apply LR_kids, Forall_filter, K.
  - destruct (_ && _); [|discriminate E]. destruct (run_lines ind size (runs kids)) as [[|ln l]|] eqn:R; try discriminate E. injection E as <-. exact (runs_LR ind size kids _ K R).
Qed.
Lemma special_mixed_LR ind size kids ls : Forall KI kids -> plainkids kids -> special_mixed ind size kids = Some ls -> LR ls (map fst kids).
Proof.
  intros K P E. unfold special_mixed in E. destruct (existsb is_comment (map fst kids)); [discriminate E|]. destruct (_ && _).
  - injection E as <-. exact (mixed_LR ind size kids K true [] [] PR_nil).
  - destruct (_ && _ && _); [|discriminate E]. pose proof (element_LR ind size kids K P) as L. destruct (flat_map (element_line ind size) kids); [discriminate E|]. injection E as <-. exact L.
Qed.
Lemma indent_LR ind kids : Forall KI kids -> LR (map (fun k => ([], [Child (snd k) ind], false)) (filter (fun k => negb (blank_text (fst k))) kids)) (map fst kids).
Proof.
  intros K. apply (LR_sub _ (filter (fun k => negb (blank_text (fst k))) kids)).
  - apply sub_filter. intros k I F. apply blank_hush. apply negb_false_iff in F. exact F.
  - apply LR_kids, Forall_filter, K.
Qed.
Definition tdata (c : node) : str := match c with NText d => d | _ => [] end.
Lemma SL_texts l : forallb is_text l = true -> SL l (chars (flat_map tdata l)).
Proof.
  induction l as [|n l IH]; [intros _; constructor|]. cbn [forallb flat_map]. intros H. apply andb_prop in H as [A B]. destruct n as [d|d|d|d|cs|name ns attrs cs tc]; try discriminate A. cbn [tdata]. unfold chars. rewrite map_app. exact (SL_app [NText d] l _ _ (SL_text d) (IH B)).
Qed.
Lemma eval_all_pre ind kids : Forall KI kids -> forall l, eval_all kids ind true = Some l -> exists tc, SL (map fst kids) tc /\ good (List.concat l) tc.
Proof.
  induction 1 as [|k kids K H IH]; intros l E; cbn [eval_all] in E.
  - injection E as <-. exists []. split; [constructor|apply good_nil].
  - destruct k as [n r]. destruct (r ind true) as [a|] eqn:Ea; [|discriminate E]. destruct (eval_all kids ind true) as [m|]; [|discriminate E]. injection E as <-.
    destruct (IH m eq_refl) as (tc & A & B). destruct (K ind true a Ea) as (c & t & ts & C1 & C2 & C3 & C4 & C5 & _). cbn [fst] in *. rewrite (C5 eq_refl) in C4.
    exists (t ++ tc). split; [exact (SL_cons _ _ _ _ _ C1 C2 C3 A)|exact (good_app _ _ _ _ _ _ C4 B)].
Qed.

Definition CR (inner : nat) (pre : bool) (l : list node) (x : str) : Prop :=
  exists tc ts, SL l tc /\ good x ts /\ (pre = true -> ts = tc) /\ view inner ts = view inner tc.
Lemma Res_CR l x : Res l x -> CR O false l x.
Proof. intros (tc & ts & A & B & C). exists tc, ts. split; [exact A|]. split; [exact B|]. split; [discriminate|exact C]. Qed.
Lemma content_res size name ns op cl kids ind pre s : Forall KI kids -> plainkids kids ->
  (forall d, serialize_text_for_parent d (Some (name, ns)) = escape_text d) ->
  pretty_content size name ns op cl kids ind pre = Some s ->
  exists x, s = (if pre then [] else pretty_indent ind size) ++ op ++ x ++ cl /\ CR (if keeps_spaceb name then 1%nat else 0%nat) pre (map fst kids) x.
Proof.
  intros K P T E. unfold pretty_content in E. set (prefix := if pre then [] else pretty_indent ind size) in *.
  assert (Bp : bl prefix) by (unfold prefix; destruct pre; [intros c []|apply bl_indent]). clearbody prefix.
  destruct kids as [|k0 kids0]; [injection E as <-; exists []; split; [reflexivity|]; exists [], []; repeat split; [constructor|apply good_nil]|].
  set (kids := k0 :: kids0) in *. clearbody kids. change (in_strs name whitespace_preserving) with (keeps_spaceb name) in E.
  destruct (pre || keeps_spaceb name) eqn:Ep.
  { destruct (eval_all kids (ind + 1)%Z true) as [l|] eqn:El; [|discriminate E]. injection E as <-. exists (List.concat l). split; [reflexivity|].
    destruct (eval_all_pre _ _ K l El) as (tc & A & B). exists tc, tc. repeat split; assumption. }
  apply orb_false_iff in Ep as [-> ->].
  assert (Wl : forall ls b s, LR ls (map fst kids) -> wrap_lines prefix op cl ls b = Some s -> exists x, s = prefix ++ op ++ x ++ cl /\ CR 0 false (map fst kids) x).
  { clear E. intros ls b s' L E. unfold wrap_lines in E. apply opt_cat_inv in E as (a & y & Ea & E & ->). injection Ea as <-. apply opt_cat_inv in E as (x & z & Ex & Ez & ->). injection Ez as <-.
    exists (x ++ 10 :: prefix). split; [rewrite <- !app_assoc; reflexivity|]. apply Res_CR. rewrite <- (app_nil_r (map fst kids)). apply Res_app; [exact (L b x Ex)|]. apply Res_blank. intros c [<-|I]; [right; reflexivity|exact (Bp c I)]. }
  destruct (forallb is_text (map fst kids)) eqn:At.
  { injection E as <-. rewrite T. eexists. split; [reflexivity|]. apply Res_CR. rewrite escape_text_flat.
    exists (chars (flat_map tdata (map fst kids))), (chars (collapse_html (flat_map tdata (map fst kids)))). split; [exact (SL_texts _ At)|]. split; [apply good_text|apply view_same, sol_collapse]. }
  destruct (in_strs name special_elements).
  - destruct (special_lines ind size kids) as [ls|] eqn:E1; [exact (Wl ls true s (special_lines_LR ind size kids ls K P E1) E)|].
    destruct (should_indent (map fst kids)); [exact (Wl _ false s (indent_LR (ind + 1)%Z kids K) E)|].
    destruct (special_mixed ind size kids) as [ls|] eqn:E2; [exact (Wl ls true s (special_mixed_LR ind size kids ls K P E2) E)|].
    unfold wrap_parts in E. apply opt_cat_inv in E as (a & y & Ea & E & ->). injection Ea as <-. apply opt_cat_inv in E as (x & z & Ex & Ez & ->). injection Ez as <-.
    exists x. split; [rewrite <- !app_assoc; reflexivity|]. apply Res_CR. exact (compact_PR kids K true x Ex).
  - destruct (should_indent (map fst kids)); [exact (Wl _ false s (indent_LR (ind + 1)%Z kids K) E)|].
    unfold wrap_parts in E. apply opt_cat_inv in E as (a & y & Ea & E & ->). injection Ea as <-. apply opt_cat_inv in E as (x & z & Ex & Ez & ->). injection Ez as <-.
    exists x. split; [rewrite <- !app_assoc; reflexivity|]. apply Res_CR. exact (compact_PR kids K true x Ex).
Qed.
End Layout.
