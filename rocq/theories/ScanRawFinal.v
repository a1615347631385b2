(* raw text and scripts: the scanner against the tokenizer of the standard, for text with any line breaks *)
From Coq Require Import Lia ZifyBool ZifyN ZifyNat.
From Verif Require Import Str StrFacts HtmlCharRefSpec HtmlTokSpec TokFacts RawTextSpec ScanModel ScanComProofs ScanRawProofs ScanScriptProofs ScanFirst ScanScriptFind ScanTail CharRefFacts.
From Verif Require ScanComFinal.
Open Scope list_scope. Open Scope N_scope.

Lemma strip_newlines p : forall s, ScanComFinal.plain p = true -> strip_ci p (newlines s) = option_map newlines (strip_ci p s).
Proof.
  unfold ScanComFinal.plain. induction p as [|x p IH]; intros s H; [reflexivity|]. cbn [forallb] in H. apply andb_true_iff in H as [Hx Hp]. destruct s as [|c t]; [reflexivity|]. destruct (N.eqb_spec c 13) as [->|Nc].
  - destruct (ScanComFinal.newlines_head_cr t) as [r ->]. cbn [strip_ci]. change (alow_c 10) with 10. change (alow_c 13) with 13. replace (10 =? x) with false by lia. replace (13 =? x) with false by lia. reflexivity.
  - rewrite newlines_cons_other by exact Nc. cbn [strip_ci]. destruct (alow_c c =? x); [apply IH; exact Hp|reflexivity].
Qed.
Lemma at_tag_newlines p s : ScanComFinal.plain p = true -> at_tag p (newlines s) = at_tag p s.
Proof.
  intros H. unfold at_tag. rewrite strip_newlines by exact H. destruct (strip_ci p s) as [r|]; [|reflexivity]. cbn [option_map]. destruct r as [|c t]; [reflexivity|]. destruct (N.eqb_spec c 13) as [->|Nc]; [destruct (ScanComFinal.newlines_head_cr t) as [r ->]; reflexivity|]. rewrite newlines_cons_other by exact Nc. reflexivity.
Qed.
Lemma no_cr n : forall s, (List.length s <= n)%nat -> ~ In 13 (newlines s).
Proof.
  induction n as [|n IH]; intros s L; [destruct s; [intros []|cbn in L; lia]|]. destruct s as [|c t]; [intros []|]. cbn [List.length] in L. destruct (N.eqb_spec c 13) as [->|Nc].
  - destruct (starts [10] t) eqn:E; [apply starts_spec in E as [t' ->]; cbn [app]; cbn [app List.length] in L; rewrite newlines_crlf|rewrite newlines_cr by exact E]; (intros [Q|Q]; [discriminate Q|]); (apply IH in Q; [exact Q|lia]).
  - rewrite newlines_cons_other by exact Nc. intros [Q|Q]; [congruence|]. apply IH in Q; [exact Q|lia].
Qed.
(* the end tag itself *)
Lemma newlines_tail t : take_while (fun x => negb (x =? 62)) (newlines t) = newlines (take_while (fun x => negb (x =? 62)) t) /\ existsb (fun x => x =? 62) (newlines t) = existsb (fun x => x =? 62) t
  /\ skipn (S (List.length (take_while (fun x => negb (x =? 62)) (newlines t)))) (newlines t) = newlines (skipn (S (List.length (take_while (fun x => negb (x =? 62)) t))) t).
Proof.
  remember (List.length t) as n eqn:L. assert (Hn : (List.length t <= n)%nat) by lia. clear L. revert t Hn. induction n as [|n IH]; intros t Hn; [destruct t; [repeat split|cbn in Hn; lia]|]. destruct t as [|c t]; [repeat split|]. cbn [List.length] in Hn. destruct (N.eqb_spec c 13) as [->|Nc].
  - destruct (starts [10] t) eqn:E.
    + apply starts_spec in E as [t' ->]. cbn [app]. cbn [app List.length] in Hn. rewrite newlines_crlf. cbn [take_while N.eqb Pos.eqb negb existsb orb List.length]. destruct (IH t' ltac:(lia)) as (A & B & C). rewrite newlines_crlf, A, B. repeat split. change (skipn (S (S (List.length (newlines (take_while (fun x : N => negb (x =? 62)) t'))))) (10 :: newlines t')) with (skipn (S (List.length (newlines (take_while (fun x : N => negb (x =? 62)) t')))) (newlines t')). rewrite <- A. exact C.
    + rewrite newlines_cr by exact E. cbn [take_while N.eqb Pos.eqb negb existsb orb List.length]. destruct (IH t ltac:(lia)) as (A & B & C). rewrite newlines_cr, A, B; [|destruct t as [|x t]; [reflexivity|]; cbn [take_while]; destruct (negb (x =? 62)); [exact E|reflexivity]]. repeat split. change (skipn (S (S (List.length (newlines (take_while (fun x : N => negb (x =? 62)) t))))) (10 :: newlines t)) with (skipn (S (List.length (newlines (take_while (fun x : N => negb (x =? 62)) t)))) (newlines t)). rewrite <- A. exact C.
  - rewrite newlines_cons_other by exact Nc. cbn [take_while existsb]. destruct (c =? 62) eqn:Ec; cbn [negb orb List.length]; [repeat split|]. destruct (IH t ltac:(lia)) as (A & B & C). rewrite newlines_cons_other by exact Nc. rewrite A, B. repeat split. change (skipn (S (S (List.length (newlines (take_while (fun x : N => negb (x =? 62)) t))))) (c :: newlines t)) with (skipn (S (List.length (newlines (take_while (fun x : N => negb (x =? 62)) t)))) (newlines t)). rewrite <- A. exact C.
Qed.
Lemma newlines_in c n : forall t, (List.length t <= n)%nat -> c <> 10 -> In c (newlines t) -> In c t.
Proof.
  induction n as [|n IH]; intros t L Nc I; [destruct t; [exact I|cbn in L; lia]|]. destruct t as [|x t]; [exact I|]. cbn [List.length] in L. destruct (N.eqb_spec x 13) as [->|Nx].
  - destruct (starts [10] t) eqn:E; [apply starts_spec in E as [t' ->]; cbn [app] in *; cbn [List.length] in L; rewrite newlines_crlf in I|rewrite newlines_cr in I by exact E]; (destruct I as [I|I]; [congruence|]); right; [right|]; apply IH; try assumption; lia.
  - rewrite newlines_cons_other in I by exact Nx. destruct I as [->|I]; [left; reflexivity|]. right. apply IH; try assumption; lia.
Qed.
Definition no_quotes (t : str) : Prop := forall c, In c (take_while (fun x => negb (x =? 62)) t) -> c <> 34 /\ c <> 39.
Section Any.
Variables (name : str) (sc : bool).
Hypothesis name_ok : forallb is_lower_ascii name = true.
Hypothesis name_ne : name <> [].
Lemma tag_plain : ScanComFinal.plain (tag name) = true.
Proof. unfold ScanComFinal.plain, tag. apply forallb_forall. rewrite forallb_forall in name_ok. intros c [<-|[<-|I]]; [reflexivity|reflexivity|]. specialize (name_ok c I). unfold is_lower_ascii in name_ok. lia. Qed.
Lemma decide_newlines m s : decide name m (newlines s) = decide name m s.
Proof. destruct m; cbn [decide]; rewrite ?(at_tag_newlines (tag name) s tag_plain), ?(at_tag_newlines script_open s eq_refl), ?(at_tag_newlines (u "</script") s eq_refl), ?(ScanComFinal.starts_newlines (u "-->") s eq_refl), ?(ScanComFinal.starts_newlines (u "<!--") s eq_refl); reflexivity. Qed.
(* a jump passes over characters that are no line breaks *)
Lemma hits_prefix p s : hits p s = true -> low_ascii p = true -> forall n, (n < List.length p)%nat -> ScanComFinal.plain p = true -> ~ In 13 (firstn n (tl s)).
Proof.
  intros H Lp n L Pp I. unfold hits in H. destruct (strip_ci p s) as [r|] eqn:E; [|discriminate H]. destruct (strip_some _ _ _ E) as (A & _ & C). destruct s as [|c s]; [destruct n; exact I|]. cbn [tl] in I. assert (K : In 13 (firstn (List.length p) (c :: s))).
  { destruct (List.length p) as [|q]; [lia|]. cbn [firstn]. right. rewrite <- (firstn_skipn n (firstn q s)). apply in_or_app. left. rewrite firstn_firstn. replace (Nat.min n q) with n by lia. exact I. }
  assert (K2 : In (alow_c 13) p) by (rewrite <- C; apply in_map; exact K). unfold ScanComFinal.plain in Pp. rewrite forallb_forall in Pp. specialize (Pp _ K2). discriminate Pp.
Qed.
Lemma starts_prefix p s n : starts p s = true -> (n < List.length p)%nat -> ScanComFinal.plain p = true -> ~ In 13 (firstn n (tl s)).
Proof.
  intros H L Pp I. apply starts_spec in H as [t ->]. destruct p as [|x p]; [cbn in L; lia|]. cbn [app tl List.length] in *. rewrite firstn_app in I. replace (n - List.length p)%nat with O in I by lia. cbn [firstn] in I. rewrite app_nil_r in I. unfold ScanComFinal.plain in Pp. rewrite forallb_forall in Pp. assert (K : In 13 (x :: p)) by (right; rewrite <- (firstn_skipn n p); apply in_or_app; left; exact I). specialize (Pp _ K). discriminate Pp.
Qed.
Lemma jump_plain m m' n c t : decide name m (c :: t) = Jump m' n -> ~ In 13 (firstn n t).
Proof.
  intros D. change t with (tl (c :: t)). destruct m; cbn [decide] in D.
  - destruct (at_tag (tag name) (c :: t)); discriminate D.
  - destruct (at_tag (tag name) (c :: t)); [discriminate D|]. destruct (starts (u "<!--") (c :: t)) eqn:E; [|discriminate D]. injection D as <- <-. apply (starts_prefix _ _ 1 E); [cbn; lia|reflexivity].
  - destruct (starts (u "-->") (c :: t)) eqn:E; [injection D as <- <-; apply (starts_prefix _ _ 2 E); [cbn; lia|reflexivity]|]. destruct (at_tag script_open (c :: t)) eqn:E2; [injection D as <- <-; apply at_tag_hits in E2; apply (hits_prefix _ _ E2 eq_refl); [cbn; lia|reflexivity]|]. destruct (at_tag (tag name) (c :: t)); discriminate D.
  - destruct (starts (u "-->") (c :: t)) eqn:E; [injection D as <- <-; apply (starts_prefix _ _ 2 E); [cbn; lia|reflexivity]|]. destruct (at_tag (u "</script") (c :: t)) eqn:E2; [injection D as <- <-; apply at_tag_hits in E2; apply (hits_prefix _ _ E2 eq_refl); [cbn; lia|reflexivity]|discriminate D].
Qed.
Definition same (o o' : option nat) (s : str) : Prop :=
  match o, o' with
  | Some i, Some i' => firstn i' (newlines s) = newlines (firstn i s) /\ skipn i' (newlines s) = newlines (skipn i s)
  | None, None => True
  | _, _ => False
  end.
Lemma same_cons o o' c t : c <> 13 -> same o o' t -> same (option_map S o) (option_map S o') (c :: t).
Proof.
  intros Nc H. unfold same in *. destruct o as [i|], o' as [i'|]; try contradiction; [|exact H]. destruct H as [A B]. cbn [option_map]. rewrite newlines_cons_other by exact Nc. cbn [firstn skipn]. rewrite newlines_cons_other by exact Nc. rewrite A, B. split; reflexivity.
Qed.
Lemma lk_same n : forall m k s, (List.length s <= n)%nat -> ~ In 13 (firstn k s) -> same (lk name m k s) (lk name m k (newlines s)) s.
Proof.
  induction n as [|n IH]; intros m k s L K; [destruct s; [exact Logic.I|cbn in L; lia]|]. destruct s as [|c t]; [exact Logic.I|]. cbn [List.length] in L. destruct (N.eqb_spec c 13) as [->|Nc].
  - destruct k as [|k]; [|exfalso; apply K; left; reflexivity]. rewrite (lk_quiet name m 13) by (destruct m; reflexivity). destruct (starts [10] t) eqn:E.
    + apply starts_spec in E as [t' ->]. cbn [app]. cbn [app List.length] in L. rewrite newlines_crlf. rewrite (lk_quiet name m 10) by (destruct m; reflexivity). rewrite (lk_quiet name m 10) by (destruct m; reflexivity). specialize (IH m O t' ltac:(lia) ltac:(intros [])). unfold same in *. destruct (lk name m 0 t') as [i|], (lk name m 0 (newlines t')) as [i'|]; try contradiction; [|exact IH]. destruct IH as [A B]. cbn [option_map]. rewrite newlines_crlf. cbn [firstn skipn]. rewrite newlines_crlf, A, B. split; reflexivity.
    + rewrite newlines_cr by exact E. rewrite (lk_quiet name m 10) by (destruct m; reflexivity). specialize (IH m O t ltac:(lia) ltac:(intros [])). unfold same in *. destruct (lk name m 0 t) as [i|], (lk name m 0 (newlines t)) as [i'|]; try contradiction; [|exact IH]. destruct IH as [A B]. cbn [option_map]. rewrite newlines_cr by exact E. cbn [firstn skipn]. rewrite newlines_cr, A, B; [split; reflexivity|]. destruct t as [|x t]; [destruct i; reflexivity|]. destruct i; [reflexivity|]. exact E.
  - assert (Q : lk name m k (newlines (c :: t)) = match k with S k => option_map S (lk name m k (newlines t)) | O => match decide name m (c :: t) with Stop => Some O | Jump m' n => option_map S (lk name m' n (newlines t)) | Go => option_map S (lk name m O (newlines t)) end end).
    { rewrite <- decide_newlines. rewrite newlines_cons_other by exact Nc. reflexivity. }
    rewrite Q. clear Q. cbn [lk]. destruct k as [|k].
    + destruct (decide name m (c :: t)) as [|m' j|] eqn:D; [split; reflexivity| |]; apply same_cons; try exact Nc; apply IH; try lia; [exact (jump_plain _ _ _ _ _ D)|intros []].
    + apply same_cons; [exact Nc|]. apply IH; [lia|]. intros I. apply K. right. exact I.
Qed.
(* the tokens of raw text, by the lookahead machine on the text as it stands *)
Lemma skip_tag s i i' : at_tag (tag name) (skipn i s) = true -> skipn i' (newlines s) = newlines (skipn i s) -> skipn (i' + List.length (tag name)) (newlines s) = newlines (skipn (i + List.length (tag name)) s).
Proof.
  intros H E. rewrite <- !skipn_sk, E. apply at_tag_hits in H. unfold hits in H. destruct (strip_ci (tag name) (skipn i s)) as [r|] eqn:Q; [|discriminate H]. pose proof (strip_newlines (tag name) (skipn i s) tag_plain) as N1. rewrite Q in N1. cbn [option_map] in N1. destruct (strip_some _ _ _ N1) as (_ & X & _). destruct (strip_some _ _ _ Q) as (_ & Y & _). rewrite <- X, <- Y. reflexivity.
Qed.
Lemma render_newlines r m s : (forall i, lk name m O s = Some i -> at_tag (tag name) (skipn i s) = true) -> render name sc r (lk name m O (newlines s)) (newlines s) =
  match lk name m O s with
  | None => chars (map nul (newlines s))
  | Some i => chars (map nul (newlines (firstn i s))) ++ run sc O name (RawEndName r name) (newlines (skipn (i + List.length (tag name)) s))
  end.
Proof.
  intros H. pose proof (lk_same (List.length s) m O s (le_n _) (fun I => I)) as K. unfold same in K. unfold render. destruct (lk name m 0 s) as [i|], (lk name m 0 (newlines s)) as [i'|]; try contradiction; [|reflexivity]. destruct K as [A B]. rewrite A, (skip_tag s i i' (H i eq_refl) B). reflexivity.
Qed.
Lemma rawtext_run s : run sc O name Rawtext (newlines s) =
  match lk name MRaw O s with
  | None => chars (map nul (newlines s))
  | Some i => chars (map nul (newlines (firstn i s))) ++ run sc O name (RawEndName RRawtext name) (newlines (skipn (i + List.length (tag name)) s))
  end.
Proof.
  rewrite (raw_ok name sc name_ok name_ne (List.length (newlines s)) (newlines s) (le_n _) (no_cr _ s (le_n _))). apply render_newlines. intros i H. apply (lk_raw_spec name name_ok s i H).
Qed.
Lemma end_run r t : match t with c :: _ => ends_name c | [] => false end = true -> no_quotes t ->
  run sc O name (RawEndName r name) (newlines t) = match find_tag_end None t with Some e => TEnd name :: run sc O name Data (newlines (skipn (e + 1) t)) | None => [] end.
Proof.
  intros H Q. rewrite tag_end_plain by exact Q. destruct (newlines_tail t) as (A & B & C). assert (Q' : no_quotes (newlines t)).
  { intros c I. rewrite A in I. split; intros ->; (apply (newlines_in _ (List.length (take_while (fun x : N => negb (x =? 62)) t))) in I; [|lia|discriminate]); destruct (Q _ I); congruence. }
  assert (L : alow name = name) by (exact (alow_lower name name_ok name name_ok)). destruct t as [|c t]; [discriminate H|]. destruct (newlines (c :: t)) as [|d w] eqn:E; [destruct (N.eqb_spec c 13) as [->|Nc]; [destruct (ScanComFinal.newlines_head_cr t) as [r' K]; congruence|rewrite newlines_cons_other in E by exact Nc; discriminate E]|].
  assert (Hd : ws d || (d =? 47) || (d =? 62) = true).
  { destruct (N.eqb_spec c 13) as [->|Nc]; [destruct (ScanComFinal.newlines_head_cr t) as [r' K]; rewrite K in E; injection E as <- <-; reflexivity|]. rewrite newlines_cons_other in E by exact Nc. injection E as <- <-. rewrite <- stop_iff by exact Nc. exact H. }
  destruct (N.eqb_spec d 62) as [->|Nd].
  - rewrite (run_emit _ _ _ _ _ (Tag true name []) false) by (cbn [step]; rewrite L, str_eqb_refl; reflexivity). cbn [t_end t_name]. rewrite <- B. cbn [existsb N.eqb Pos.eqb orb]. cbn [take_while N.eqb Pos.eqb negb List.length skipn] in C. rewrite C. rewrite Nat.add_1_r. reflexivity.
  - assert (G : forall s', in_tag name s' -> step name (RawEndName r name) d w = Eat [] O s' -> run sc O name (RawEndName r name) (d :: w) = if existsb (fun x => x =? 62) (d :: w) then TEnd name :: run sc O name Data (skipn (S (List.length (take_while (fun x => negb (x =? 62)) (d :: w)))) (d :: w)) else []).
    { intros s' I E1. rewrite (run_eat _ _ _ _ _ s' E1). cbn [existsb take_while]. replace (d =? 62) with false by lia. cbn [negb orb List.length]. change (skipn (S (S (List.length (take_while (fun x : N => negb (x =? 62)) w)))) (d :: w)) with (skipn (S (List.length (take_while (fun x : N => negb (x =? 62)) w))) w). apply (tail_run sc name name w O s' I); [cbn; lia|reflexivity|].
      intros x X. apply Q'. cbn [take_while]. replace (d =? 62) with false by lia. right. exact X. }
    rewrite (G (if ws d then BeforeAttrName (Tag true name []) else SelfClosing (Tag true name []))).
    + rewrite C, B. destruct (existsb (fun x : N => x =? 62) (c :: t)); [rewrite Nat.add_1_r|]; reflexivity.
    + destruct (ws d); split; reflexivity.
    + cbn [step]. rewrite L, str_eqb_refl, !andb_true_r. destruct (ws d); [reflexivity|]. destruct (N.eqb_spec d 47) as [->|]; [reflexivity|]. exfalso. cbn [orb] in Hd. lia.
Qed.
End Any.
