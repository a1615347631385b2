(* raw text and scripts: the tokenizer of the standard, with lookahead *)
From Coq Require Import Lia ZifyBool ZifyN ZifyNat.
From Verif Require Import Str StrFacts HtmlCharRefSpec HtmlTokSpec TokFacts RawTextSpec.
Open Scope N_scope.

(* p at the front of s, in any ASCII case (p is in lower case); the rest *)
Fixpoint strip_ci (p s : str) : option str :=
  match p, s with
  | [], _ => Some s
  | x :: p', y :: s' => if alow_c y =? x then strip_ci p' s' else None
  | _ :: _, [] => None
  end.
(* p at the front, and then a character that ends a tag name *)
Definition at_tag (p s : str) : bool := match strip_ci p s with Some (c :: _) => ends_name c | _ => false end.
Inductive mode := MRaw | MData | MEsc | MDbl.
Inductive action := Stop | Jump (m : mode) (n : nat) | Go.
Definition script_open : str := u "<script".
Section Machine.
Variable name : str.
Definition tag : str := 60 :: 47 :: name.
Definition decide (m : mode) (s : str) : action :=
  match m with
  | MRaw => if at_tag tag s then Stop else Go
  | MData => if at_tag tag s then Stop else if starts (u "<!--") s then Jump MEsc 1 else Go
  | MEsc => if starts (u "-->") s then Jump MData 2 else if at_tag script_open s then Jump MDbl 6 else if at_tag tag s then Stop else Go
  | MDbl => if starts (u "-->") s then Jump MData 2 else if at_tag (u "</script") s then Jump MEsc 7 else Go
  end.
(* the position of the end tag; k more characters are passed before looking *)
Fixpoint lk (m : mode) (k : nat) (s : str) : option nat :=
  match s with
  | [] => None
  | _ :: t =>
    match k with
    | S k => option_map S (lk m k t)
    | O => match decide m s with Stop => Some O | Jump m' n => option_map S (lk m' n t) | Go => option_map S (lk m O t) end
    end
  end.

Lemma alpha_cases c : is_alpha_ascii c = true -> ends_name c = false /\ ws c = false /\ (c =? 47) = false /\ (c =? 62) = false /\ (c =? 45) = false /\ (c =? 60) = false /\ nul c = c.
Proof. unfold is_alpha_ascii, is_upper_ascii, is_lower_ascii, ends_name, ws, nul, mem. cbn [existsb]. intros H. repeat split; try lia. destruct (N.eqb_spec c 0); [lia|reflexivity]. Qed.
Lemma stop_cases c : ends_name c = true -> is_alpha_ascii c = false /\ (c =? 45) = false /\ (c =? 60) = false /\ (c =? 0) = false /\ (c =? 33) = false.
Proof. unfold is_alpha_ascii, is_upper_ascii, is_lower_ascii, ends_name, mem. cbn [existsb]. intros H. repeat split; lia. Qed.
Lemma stop_iff c : c <> 13 -> ends_name c = ws c || (c =? 47) || (c =? 62).
Proof. intros H. unfold ends_name, ws, mem. cbn [existsb]. lia. Qed.
(* letters in front of something else: the name is matched exactly by them *)
Lemma strip_letters p : forall b c t, forallb is_alpha_ascii b = true -> is_alpha_ascii c = false -> forallb is_lower_ascii p = true ->
  match strip_ci p (b ++ c :: t) with Some (d :: _) => ends_name d | _ => false end = str_eqb (alow b) p && ends_name c.
Proof.
  induction p as [|x p IH]; intros b c t Hb Hc Hp.
  - destruct b as [|y b]; [reflexivity|]. cbn [forallb] in Hb. apply andb_true_iff in Hb as [Hy _]. cbn [app strip_ci]. destruct (alpha_cases y Hy) as [-> _]. reflexivity.
  - cbn [forallb] in Hp. apply andb_true_iff in Hp as [Hx Hp]. destruct b as [|y b].
    + cbn [app strip_ci]. unfold alow_c. replace (is_upper_ascii c) with false by (unfold is_alpha_ascii in Hc; destruct (is_upper_ascii c); [discriminate Hc|reflexivity]). replace (c =? x) with false by (unfold is_alpha_ascii, is_lower_ascii in *; lia). reflexivity.
    + cbn [forallb] in Hb. apply andb_true_iff in Hb as [_ Hb]. cbn [app strip_ci alow map]. unfold str_eqb. fold str_eqb. destruct (alow_c y =? x); [|reflexivity]. apply (IH b c t Hb Hc Hp).
Qed.
Lemma strip_letters_end p : forall b, forallb is_alpha_ascii b = true -> match strip_ci p b with Some (d :: _) => ends_name d | _ => false end = false.
Proof.
  induction p as [|x p IH]; intros b Hb.
  - destruct b as [|y b]; [reflexivity|]. cbn [forallb] in Hb. apply andb_true_iff in Hb as [Hy _]. cbn [strip_ci]. destruct (alpha_cases y Hy) as [-> _]. reflexivity.
  - destruct b as [|y b]; [reflexivity|]. cbn [forallb] in Hb. apply andb_true_iff in Hb as [_ Hb]. cbn [strip_ci]. destruct (alow_c y =? x); [|reflexivity]. apply IH. exact Hb.
Qed.
Lemma alow_lt x : (alow_c x =? 60) = (x =? 60).
Proof. unfold alow_c, is_upper_ascii. destruct ((65 <=? x) && (x <=? 90)) eqn:E; lia. Qed.
Lemma alow_slash x : (alow_c x =? 47) = (x =? 47).
Proof. unfold alow_c, is_upper_ascii. destruct ((65 <=? x) && (x <=? 90)) eqn:E; lia. Qed.
Lemma tag_none p c t : c <> 60 -> at_tag (60 :: p) (c :: t) = false.
Proof. intros H. unfold at_tag. cbn [strip_ci]. rewrite alow_lt. replace (c =? 60) with false by lia. reflexivity. Qed.
Lemma open_slash t : at_tag script_open (60 :: 47 :: t) = false.
Proof. reflexivity. Qed.
Lemma starts_lt p c t : c <> 60 -> starts (60 :: p) (c :: t) = false.
Proof. intros H. cbn [starts]. replace (60 =? c) with false by lia. reflexivity. Qed.
Lemma starts_dash p c t : c <> 45 -> starts (45 :: p) (c :: t) = false.
Proof. intros H. cbn [starts]. replace (45 =? c) with false by lia. reflexivity. Qed.
Definition quiet (m : mode) (c : N) : bool := negb (c =? 60) && (match m with MRaw | MData => true | _ => negb (c =? 45) end).
Lemma decide_quiet m c t : quiet m c = true -> decide m (c :: t) = Go.
Proof.
  unfold quiet. intros H. apply andb_true_iff in H as [H1 H2]. assert (c <> 60) by lia. destruct m; cbn [decide].
  - unfold tag. rewrite tag_none by assumption. reflexivity.
  - unfold tag. rewrite tag_none by assumption. change (u "<!--") with (60 :: [33; 45; 45]). rewrite starts_lt by assumption. reflexivity.
  - unfold tag, script_open. rewrite tag_none by assumption. change (u "-->") with (45 :: [45; 62]). rewrite starts_dash by lia. change (u "<script") with (60 :: u "script"). rewrite tag_none by assumption. reflexivity.
  - change (u "-->") with (45 :: [45; 62]). rewrite starts_dash by lia. change (u "</script") with (60 :: u "/script"). rewrite tag_none by assumption. reflexivity.
Qed.
Lemma lk_go m c t : decide m (c :: t) = Go -> lk m O (c :: t) = option_map S (lk m O t).
Proof. intros H. cbn [lk]. rewrite H. reflexivity. Qed.
Lemma lk_quiet m c t : quiet m c = true -> lk m O (c :: t) = option_map S (lk m O t).
Proof. intros H. apply lk_go. apply decide_quiet. exact H. Qed.
Lemma lk_jump m m' n c t : decide m (c :: t) = Jump m' n -> lk m O (c :: t) = option_map S (lk m' n t).
Proof. intros H. cbn [lk]. rewrite H. reflexivity. Qed.
Lemma lk_skip m p : forall t, lk m (List.length p) (p ++ t) = option_map (fun i => (List.length p + i)%nat) (lk m O t).
Proof. induction p as [|c p IH]; intros t; [cbn [List.length app]; destruct (lk m 0 t); reflexivity|]. cbn [List.length app lk]. rewrite IH. destruct (lk m 0 t); reflexivity. Qed.

Variables (sc : bool).
Hypothesis name_ok : forallb is_lower_ascii name = true.
Hypothesis name_ne : name <> [].
(* the tokens of raw text that ends there *)
Definition render (r : raw) (o : option nat) (s : str) : list token :=
  match o with
  | None => chars (map nul s)
  | Some i => (chars (map nul (firstn i s)) ++ run sc O name (RawEndName r name) (skipn (i + List.length tag) s))%list
  end.
Lemma render_S r o c s : render r (option_map S o) (c :: s) = TChar (nul c) :: render r o s.
Proof. destruct o; reflexivity. Qed.
Lemma alow_lower b : forallb is_lower_ascii b = true -> alow b = b.
Proof. intros H. unfold alow. rewrite forallb_forall in H. rewrite <- (map_id b) at 2. apply map_ext_in. intros c I. specialize (H c I). unfold alow_c. unfold is_lower_ascii, is_upper_ascii in *. replace ((65 <=? c) && (c <=? 90)) with false by lia. reflexivity. Qed.
Lemma end_name_run r r' b c t : alow b = name -> ws c || (c =? 47) || (c =? 62) = true -> run sc O name (RawEndName r b) (c :: t) = run sc O name (RawEndName r' name) (c :: t).
Proof.
  intros E H. rewrite !run_cons. cbn [resolve]. unfold step. rewrite E, (alow_lower name name_ok), str_eqb_refl, !andb_true_r. destruct (ws c); [reflexivity|]. destruct (c =? 47); [reflexivity|]. destruct (c =? 62); [reflexivity|discriminate H].
Qed.
Definition base (r : raw) : mode := match r with RRawtext => MRaw | RScript => MData | _ => MEsc end.
Lemma at_tag_letters b c t : forallb is_alpha_ascii b = true -> is_alpha_ascii c = false -> at_tag tag (60 :: 47 :: b ++ c :: t) = str_eqb (alow b) name && ends_name c.
Proof. intros Hb Hc. unfold at_tag, tag. cbn [strip_ci]. cbn [alow_c is_upper_ascii N.leb N.compare Pos.compare Pos.compare_cont andb N.eqb Pos.eqb]. apply strip_letters; assumption. Qed.
Lemma at_tag_letters_end b : forallb is_alpha_ascii b = true -> at_tag tag (60 :: 47 :: b) = false.
Proof. intros Hb. unfold at_tag, tag. cbn [strip_ci]. cbn [alow_c is_upper_ascii N.leb N.compare Pos.compare Pos.compare_cont andb N.eqb Pos.eqb]. apply strip_letters_end. exact Hb. Qed.
Lemma decide_end r b c t : forallb is_alpha_ascii b = true -> is_alpha_ascii c = false -> r <> RRcdata -> decide (base r) (60 :: 47 :: b ++ c :: t) = if str_eqb (alow b) name && ends_name c then Stop else Go.
Proof. intros Hb Hc Hr. destruct r; [congruence| | |]; cbn [base decide]; rewrite at_tag_letters by assumption; reflexivity. Qed.
Lemma decide_end_eof r b : forallb is_alpha_ascii b = true -> r <> RRcdata -> decide (base r) (60 :: 47 :: b) = Go.
Proof. intros Hb Hr. destruct r; [congruence| | |]; cbn [base decide]; rewrite at_tag_letters_end by assumption; reflexivity. Qed.
Lemma alpha_quiet m c : is_alpha_ascii c = true -> quiet m c = true.
Proof. intros H. destruct (alpha_cases c H) as (_ & _ & _ & _ & H1 & H2 & _). unfold quiet. rewrite H1, H2. destruct m; reflexivity. Qed.
Lemma render_letters r m b : forall s, forallb is_alpha_ascii b = true -> render r (lk m O (b ++ s)) (b ++ s) = (chars b ++ render r (lk m O s) s)%list.
Proof.
  induction b as [|c b IH]; intros s H; [reflexivity|]. cbn [forallb] in H. apply andb_true_iff in H as [Hc Hb]. cbn [app]. rewrite lk_quiet by (apply alpha_quiet; exact Hc). rewrite render_S, IH by exact Hb. unfold chars. cbn [map]. destruct (alpha_cases c Hc) as (_ & _ & _ & _ & _ & _ & ->). reflexivity.
Qed.
Lemma slash_quiet m : quiet m 47 = true. Proof. destruct m; reflexivity. Qed.
Lemma render_close r m b s : decide m (60 :: 47 :: b ++ s) = Go -> forallb is_alpha_ascii b = true -> render r (lk m O (60 :: 47 :: b ++ s)) (60 :: 47 :: b ++ s) = (TChar 60 :: TChar 47 :: chars b ++ render r (lk m O s) s)%list.
Proof. intros D Hb. rewrite lk_go by exact D. rewrite render_S. rewrite lk_quiet by apply slash_quiet. rewrite render_S, render_letters by exact Hb. reflexivity. Qed.

(* ---------- the end tag states, given the state they fall back to ---------- *)
Lemma end_name_ok n r rr : r <> RRcdata -> (forall s, (List.length s <= n)%nat -> ~ In 13 s -> run sc O name (raw_state r) s = render rr (lk (base r) O s) s) ->
  forall s b, (List.length s <= n)%nat -> ~ In 13 s -> forallb is_alpha_ascii b = true -> run sc O name (RawEndName r b) s = render rr (lk (base r) O (60 :: 47 :: b ++ s)) (60 :: 47 :: b ++ s).
Proof.
  intros Nr A s. induction s as [|c t IH]; intros b L N13 Hb.
  - rewrite app_nil_r. pose proof (render_close rr (base r) b []) as R. rewrite app_nil_r in R. rewrite R by (try assumption; apply decide_end_eof; assumption). cbn [lk render map]. rewrite app_nil_r. reflexivity.
  - assert (Nc : c <> 13) by (intros ->; apply N13; left; reflexivity). cbn [List.length] in L. destruct (is_alpha_ascii c) eqn:Ea.
    + destruct (alpha_cases c Ea) as (_ & E1 & E2 & E3 & _). rewrite (run_eat _ _ _ _ _ (RawEndName r (snoc b c))) by (cbn [step]; rewrite E1, E2, E3, Ea; reflexivity). rewrite IH; [unfold snoc; rewrite <- app_assoc; reflexivity|lia|intros K; apply N13; right; exact K|].
      unfold snoc. rewrite forallb_app, Hb. cbn [forallb]. rewrite Ea. reflexivity.
    + destruct (str_eqb (alow b) name && ends_name c) eqn:E.
      * apply andb_true_iff in E as [E1 E2]. apply str_eqb_eq in E1. rewrite stop_iff in E2 by exact Nc. rewrite (end_name_run r rr b c t E1 E2). assert (D : lk (base r) 0 (60 :: 47 :: b ++ c :: t) = Some O).
        { cbn [lk]. rewrite decide_end by assumption. rewrite E1, str_eqb_refl, stop_iff, E2 by exact Nc. reflexivity. }
        rewrite D. cbn [render firstn map chars app Nat.add]. assert (Q : skipn (List.length tag) (60 :: 47 :: b ++ c :: t) = c :: t); [|rewrite Q; reflexivity]. unfold tag. cbn [List.length skipn]. rewrite <- E1. unfold alow. rewrite map_length. rewrite skipn_app, skipn_all, Nat.sub_diag. reflexivity.
      * rewrite (render_close rr (base r) b (c :: t)) by (try assumption; rewrite decide_end, E by assumption; reflexivity).
        rewrite (run_again _ _ _ _ _ (TChar 60 :: TChar 47 :: chars b) (raw_state r)).
        -- rewrite A by (try exact N13; cbn [List.length]; lia). reflexivity.
        -- cbn [step]. rewrite Ea. rewrite stop_iff in E by exact Nc. destruct (ws c), (c =? 47), (c =? 62), (str_eqb (alow b) name); try discriminate E; reflexivity.
Qed.
Lemma end_open_ok n r rr : r <> RRcdata -> (forall s, (List.length s <= n)%nat -> ~ In 13 s -> run sc O name (raw_state r) s = render rr (lk (base r) O s) s) ->
  forall s, (List.length s <= n)%nat -> ~ In 13 s -> run sc O name (RawEndOpen r) s = render rr (lk (base r) O (60 :: 47 :: s)) (60 :: 47 :: s).
Proof.
  intros Nr A s L N13. destruct s as [|c t].
  - pose proof (render_close rr (base r) [] []) as R. cbn [app] in R. rewrite R by (try reflexivity; apply (decide_end_eof r []); try exact Nr; reflexivity). reflexivity.
  - destruct (is_alpha_ascii c) eqn:Ea.
    + rewrite (run_again _ _ _ _ _ [] (RawEndName r [])) by (cbn [step]; rewrite Ea; reflexivity). cbn [app]. apply (end_name_ok n r rr Nr A (c :: t) [] L N13 eq_refl).
    + rewrite (run_again _ _ _ _ _ [TChar 60; TChar 47] (raw_state r)) by (cbn [step]; rewrite Ea; reflexivity). rewrite A by assumption.
      pose proof (render_close rr (base r) [] (c :: t)) as R. cbn [app] in R. rewrite R; [reflexivity| |reflexivity]. pose proof (decide_end r [] c t eq_refl Ea Nr) as D. cbn [app] in D. rewrite D. cbn [alow map]. destruct name; [congruence|reflexivity].
Qed.
End Machine.
