(* attributes: the scanner's loop against the attribute states of the standard's tokenizer *)
From Coq Require Import Lia ZifyBool ZifyN ZifyNat.
From Verif Require Import Str StrFacts HtmlCharRefSpec HtmlTokSpec TokFacts CharRefFacts EntitiesModel AttrModel ScanComProofs ScanRawFinal ScanRcdata.
From Verif Require ScanComFinal EntExact.
Open Scope list_scope. Open Scope N_scope.
Local Opaque charref.

Lemma space_cases c : space c = true -> c = 32 \/ c = 9 \/ c = 10 \/ c = 12 \/ c = 13.
Proof. unfold space, mem. cbn [existsb]. rewrite !orb_true_iff. intros [H|[H|[H|[H|[H|H]]]]]; try discriminate H; lia. Qed.
Lemma space_not c : space c = false -> ws c = false /\ c <> 13.
Proof. unfold space, mem, ws. cbn [existsb]. rewrite !orb_false_iff. intros (A & B & C & D & E & _). repeat split; lia. Qed.
Lemma name_stop_cases c : name_stop c = true -> space c = true \/ c = 47 \/ c = 62 \/ c = 61.
Proof. unfold name_stop, space, mem. cbn [existsb]. rewrite !orb_true_iff. intros [H|[H|[H|[H|[H|[H|[H|[H|H]]]]]]]]; try discriminate H; [left; lia|left; lia|left; lia|left; lia|left; lia| | |]; right; lia. Qed.
Lemma name_stop_not c : name_stop c = false -> space c = false /\ c <> 47 /\ c <> 62 /\ c <> 61.
Proof. unfold name_stop, space, mem. cbn [existsb]. rewrite !orb_false_iff. intros (A & B & C & D & E & F & G & H & _). repeat split; lia. Qed.
Lemma value_stop_cases c : value_stop c = true -> space c = true \/ c = 62.
Proof. unfold value_stop, space, mem. cbn [existsb]. rewrite !orb_true_iff. intros [H|[H|[H|[H|[H|[H|H]]]]]]; try discriminate H; [left; lia|left; lia|left; lia|left; lia|left; lia|]; right; lia. Qed.
Lemma value_stop_not c : value_stop c = false -> space c = false /\ c <> 62.
Proof. unfold value_stop, space, mem. cbn [existsb]. rewrite !orb_false_iff. intros (A & B & C & D & E & F & _). repeat split; lia. Qed.

Section Run.
Variables (sc : bool) (last : str).
Notation R := (run sc O last).
(* white space *)
Lemma skip_one st c s : (forall x r, ws x = true -> step last st x r = Eat [] O st) -> space c = true -> R st (newlines (c :: s)) = R st (newlines s).
Proof.
  intros H Hs. destruct (N.eqb_spec c 13) as [->|Nc].
  - destruct (starts [10] s) eqn:E.
    + apply starts_spec in E as [r ->]. cbn [app]. rewrite newlines_crlf. rewrite (newlines_cons_other 10) by discriminate. reflexivity.
    + rewrite newlines_cr by exact E. apply run_eat. apply H. reflexivity.
  - rewrite newlines_cons_other by exact Nc. apply run_eat. apply H. destruct (space_cases c Hs) as [-> | [-> | [-> | [-> | ->]]]]; reflexivity || congruence.
Qed.
Lemma skip_space st s : (forall x r, ws x = true -> step last st x r = Eat [] O st) -> R st (newlines s) = R st (newlines (drop_while space s)).
Proof.
  intros H. induction s as [|c s IH]; [reflexivity|]. cbn [drop_while]. destruct (space c) eqn:E; [|reflexivity]. rewrite skip_one by assumption. exact IH.
Qed.
Lemma head_ns c t : space c = false -> newlines (c :: t) = c :: newlines t /\ ws c = false.
Proof. intros H. destruct (space_not c H) as [A B]. split; [apply newlines_cons_other; exact B|exact A]. Qed.
Lemma before_ws t x r : ws x = true -> step last (BeforeAttrName t) x r = Eat [] O (BeforeAttrName t).
Proof. intros H. cbn [step]. rewrite H. reflexivity. Qed.
Lemma after_ws t n x r : ws x = true -> step last (AfterAttrName t n) x r = Eat [] O (AfterAttrName t n).
Proof. intros H. cbn [step]. rewrite H. reflexivity. Qed.
Lemma value_ws t n x r : ws x = true -> step last (BeforeAttrValue t n) x r = Eat [] O (BeforeAttrValue t n).
Proof. intros H. cbn [step]. rewrite H. reflexivity. Qed.

(* the name *)
Definition name_of (w : str) : str := map nul (alow w).
Lemma name_run t w : forall n r, forallb (fun c => negb (name_stop c)) w = true -> R (AttrName t n) (newlines (w ++ r)) = R (AttrName t (n ++ name_of w)) (newlines r).
Proof.
  induction w as [|c w IH]; intros n r H; [cbn [app]; unfold name_of; cbn [alow map]; rewrite app_nil_r; reflexivity|]. cbn [forallb] in H. apply andb_true_iff in H as [Hc Hw]. apply negb_true_iff in Hc. destruct (name_stop_not c Hc) as (A & B & C & D). cbn [app]. destruct (head_ns c (w ++ r) A) as [E F]. rewrite E.
  rewrite (run_eat _ _ _ _ _ (AttrName t (snoc n (nul (alow_c c))))); [|cbn [step]; rewrite F; replace (c =? 47) with false by lia; replace (c =? 62) with false by lia; replace (c =? 61) with false by lia; reflexivity].
  rewrite IH by exact Hw. unfold snoc. rewrite <- app_assoc. reflexivity.
Qed.
Lemma before_slash t r : R (BeforeAttrName t) (47 :: r) = R (SelfClosing t) r.
Proof. rewrite (run_again _ _ _ _ _ [] (AfterAttrName t [])) by reflexivity. cbn [app]. apply run_eat. reflexivity. Qed.
Lemma before_gt t r : R (BeforeAttrName t) (62 :: r) = (if t_end t then TEnd (t_name t) :: run sc O last Data r else TStart (t_name t) (t_attrs t) false :: run sc O (t_name t) (switch sc (t_name t)) r).
Proof. rewrite (run_again _ _ _ _ _ [] (AfterAttrName t [])) by reflexivity. cbn [app]. apply (run_emit _ _ _ _ _ t false). reflexivity. Qed.
Lemma self_other t c r : c <> 62 -> R (SelfClosing t) (c :: r) = R (BeforeAttrName t) (c :: r).
Proof. intros H. rewrite (run_again _ _ _ _ _ [] (BeforeAttrName t)) by (cbn [step]; replace (c =? 62) with false by lia; reflexivity). reflexivity. Qed.
(* after the name *)
Lemma after_name t n r : n <> [] -> match r with c :: _ => name_stop c = true | [] => True end ->
  R (AttrName t n) (newlines r) =
  match drop_while space r with
  | e :: r2 => if e =? 61 then R (BeforeAttrValue t n) (newlines r2) else R (BeforeAttrName (add_attr t n [])) (newlines (e :: r2))
  | [] => []
  end.
Proof.
  intros Hn Hr. destruct r as [|c r]; [reflexivity|].
  assert (K : forall s, R (AfterAttrName t n) (newlines s) = match drop_while space s with
    | e :: r2 => if e =? 61 then R (BeforeAttrValue t n) (newlines r2) else R (BeforeAttrName (add_attr t n [])) (newlines (e :: r2))
    | [] => [] end).
  { intros s. rewrite (skip_space _ _ (after_ws t n)). destruct (drop_while space s) as [|e r2] eqn:D; [reflexivity|]. pose proof (drop_while_head _ _ _ _ D) as He. destruct (head_ns e r2 He) as [E F]. rewrite E. destruct (N.eqb_spec e 61) as [->|N61].
    - apply run_eat. cbn [step]. destruct n; [congruence|reflexivity].
    - assert (T : match n with [] => t | _ :: _ => add_attr t n [] end = add_attr t n []) by (destruct n; [congruence|reflexivity]). destruct (N.eqb_spec e 47) as [->|N47]; [|destruct (N.eqb_spec e 62) as [->|N62]].
      + rewrite before_slash. apply run_eat. cbn [step]. rewrite T. reflexivity.
      + rewrite before_gt. apply run_emit. cbn [step]. rewrite T. reflexivity.
      + rewrite (run_again _ _ _ _ _ [] (AttrName (add_attr t n []) [])) by (cbn [step]; rewrite F, T; replace (e =? 47) with false by lia; replace (e =? 61) with false by lia; replace (e =? 62) with false by lia; reflexivity).
        rewrite (run_again _ _ (BeforeAttrName _) _ _ [] (AttrName (add_attr t n []) [])) by (cbn [step]; rewrite F; replace (e =? 47) with false by lia; replace (e =? 61) with false by lia; replace (e =? 62) with false by lia; reflexivity). reflexivity. }
  destruct (name_stop_cases c Hr) as [Hs|Hs].
  - assert (E : exists d w, newlines (c :: r) = d :: w /\ ws d = true).
    { destruct (space_cases c Hs) as [-> | [-> | [-> | [-> | ->]]]]; try (eexists; eexists; split; [apply newlines_cons_other; discriminate|reflexivity]). destruct (ScanComFinal.newlines_head_cr r) as [w E]. exists 10, w. split; [exact E|reflexivity]. }
    destruct E as (d & w & E & Hd). rewrite E. rewrite (run_again _ _ _ _ _ [] (AfterAttrName t n)) by (cbn [step]; rewrite Hd; reflexivity). cbn [app]. rewrite <- E. apply K.
  - assert (Sc : space c = false) by (destruct Hs as [-> | [-> | ->]]; reflexivity). destruct (head_ns c r Sc) as [E F]. rewrite <- (K (c :: r)) || idtac.
    destruct Hs as [-> | [-> | ->]].
    + rewrite E. apply (run_again _ _ _ _ _ [] (AfterAttrName t n)). reflexivity.
    + rewrite E. apply (run_again _ _ _ _ _ [] (AfterAttrName t n)). reflexivity.
    + rewrite K. cbn [drop_while]. rewrite Sc. cbn [N.eqb Pos.eqb]. rewrite E. apply run_eat. reflexivity.
Qed.
(* quoted values *)
Definition val_of (w : str) : str := decode_spec true (map nul w).
Lemma val_other c w : c <> 38 -> val_of (c :: w) = nul c :: val_of w.
Proof. intros H. unfold val_of. cbn [map]. unfold decode_spec. cbn [decode_spec_go]. replace (nul c =? 38) with false; [reflexivity|]. unfold nul. destruct (N.eqb_spec c 0); [reflexivity|lia]. Qed.
Lemma val_amp w : val_of (38 :: w) = match charref true w with Some (v, n) => v ++ val_of (skipn n w) | None => 38 :: val_of w end.
Proof.
  unfold val_of. cbn [map]. change (nul 38) with 38. unfold decode_spec. cbn [decode_spec_go]. change (38 =? 38) with true. cbv iota. rewrite charref_nul. destruct (charref true w) as [[v n]|] eqn:E; [|reflexivity]. destruct (charref_chars _ _ _ _ E) as [L _]. rewrite decode_skip by (rewrite map_length; exact L). rewrite skipn_map. reflexivity.
Qed.
Definition quoted (q : N) (t : tag) (n v : str) : state := if q =? 34 then AttrValDQ t n v else AttrValSQ t n v.
Lemma quoted_run q t n : q = 34 \/ q = 39 -> forall k w, (List.length w <= k)%nat -> forall acc z, ~ In q w -> R (quoted q t n acc) (w ++ q :: z) = R (AfterAttrValQuoted (add_attr t n (acc ++ val_of w))) z.
Proof.
  intros Hq. induction k as [|k IH]; intros w L acc z Nq.
  { destruct w; [|cbn in L; lia]. cbn [app]. change (val_of []) with (@nil N). rewrite app_nil_r. apply run_eat. destruct Hq as [-> | ->]; reflexivity. }
  destruct w as [|c w]; [cbn [app]; change (val_of []) with (@nil N); rewrite app_nil_r; apply run_eat; destruct Hq as [-> | ->]; reflexivity|].
  cbn [List.length] in L. cbn [app]. assert (Nc : c <> q) by (intros ->; apply Nq; left; reflexivity). assert (Nw : ~ In q w) by (intros I; apply Nq; right; exact I).
  destruct (N.eqb_spec c 38) as [->|N38].
  - rewrite val_amp. assert (C : charref true (w ++ q :: z) = charref true w) by (apply charref_cut; destruct Hq as [-> | ->]; reflexivity || discriminate). rewrite <- C. destruct (charref true (w ++ q :: z)) as [[v m]|] eqn:E.
    + destruct (charref_chars _ _ _ _ (eq_sym C)) as [Lm _].
      rewrite (run_eatn _ _ _ _ _ [] m (quoted q t n (acc ++ v))); [|unfold quoted; destruct Hq as [-> | ->]; cbn [N.eqb Pos.eqb step]; rewrite E; reflexivity]. cbn [app].
      rewrite run_skipn by (rewrite app_length; lia). rewrite skipn_app. replace (m - List.length w)%nat with O by lia. cbn [skipn].
      rewrite IH; [rewrite app_assoc; reflexivity|rewrite skipn_length; lia|]. intros I. apply Nw. rewrite <- (firstn_skipn m w). apply in_or_app. right. exact I.
    + rewrite (run_eat _ _ _ _ _ (quoted q t n (snoc acc 38))); [|unfold quoted; destruct Hq as [-> | ->]; cbn [N.eqb Pos.eqb step]; rewrite E; reflexivity]. rewrite IH by (lia || assumption). unfold snoc. rewrite <- app_assoc. reflexivity.
  - rewrite val_other by exact N38. rewrite (run_eat _ _ _ _ _ (quoted q t n (snoc acc (nul c)))); [|unfold quoted; destruct Hq as [-> | ->]; cbn [N.eqb Pos.eqb step]; [replace (c =? 34) with false by lia|replace (c =? 39) with false by lia]; replace (c =? 38) with false by lia; reflexivity].
    rewrite IH by (lia || assumption). unfold snoc. rewrite <- app_assoc. reflexivity.
Qed.
Lemma quoted_eof q t n : q = 34 \/ q = 39 -> forall k w, (List.length w <= k)%nat -> forall acc, ~ In q w -> R (quoted q t n acc) w = [].
Proof.
  intros Hq. induction k as [|k IH]; intros w L acc Nq.
  { destruct w; [|cbn in L; lia]. destruct Hq as [-> | ->]; reflexivity. }
  destruct w as [|c w]; [destruct Hq as [-> | ->]; reflexivity|].
  cbn [List.length] in L. assert (Nc : c <> q) by (intros ->; apply Nq; left; reflexivity). assert (Nw : ~ In q w) by (intros I; apply Nq; right; exact I).
  destruct (N.eqb_spec c 38) as [->|N38].
  - destruct (charref true w) as [[v m]|] eqn:E.
    + destruct (charref_chars _ _ _ _ E) as [Lm _].
      rewrite (run_eatn _ _ _ _ _ [] m (quoted q t n (acc ++ v))); [|unfold quoted; destruct Hq as [-> | ->]; cbn [N.eqb Pos.eqb step]; rewrite E; reflexivity]. cbn [app].
      rewrite run_skipn by lia. apply IH; [rewrite skipn_length; lia|]. intros I. apply Nw. rewrite <- (firstn_skipn m w). apply in_or_app. right. exact I.
    + rewrite (run_eat _ _ _ _ _ (quoted q t n (snoc acc 38))); [|unfold quoted; destruct Hq as [-> | ->]; cbn [N.eqb Pos.eqb step]; rewrite E; reflexivity]. apply IH; lia || assumption.
  - rewrite (run_eat _ _ _ _ _ (quoted q t n (snoc acc (nul c)))); [|unfold quoted; destruct Hq as [-> | ->]; cbn [N.eqb Pos.eqb step]; [replace (c =? 34) with false by lia|replace (c =? 39) with false by lia]; replace (c =? 38) with false by lia; reflexivity].
    apply IH; lia || assumption.
Qed.
Lemma after_quoted t s : R (AfterAttrValQuoted t) (newlines s) = R (BeforeAttrName t) (newlines s).
Proof.
  destruct s as [|c s]; [reflexivity|]. destruct (space c) eqn:Hs.
  - assert (E : exists d w, newlines (c :: s) = d :: w /\ ws d = true).
    { destruct (space_cases c Hs) as [-> | [-> | [-> | [-> | ->]]]]; try (eexists; eexists; split; [apply newlines_cons_other; discriminate|reflexivity]). destruct (ScanComFinal.newlines_head_cr s) as [w E]. exists 10, w. split; [exact E|reflexivity]. }
    destruct E as (d & w & E & Hd). rewrite E. rewrite (run_eat _ _ _ _ _ (BeforeAttrName t)) by (cbn [step]; rewrite Hd; reflexivity). rewrite (run_eat _ _ _ _ _ _ (before_ws t d w Hd)). reflexivity.
  - destruct (head_ns c s Hs) as [E F]. rewrite E. destruct (N.eqb_spec c 47) as [->|N47]; [rewrite before_slash; apply run_eat; reflexivity|]. destruct (N.eqb_spec c 62) as [->|N62]; [rewrite before_gt; apply run_emit; reflexivity|].
    apply (run_again _ _ _ _ _ [] (BeforeAttrName t)). cbn [step]. rewrite F. replace (c =? 47) with false by lia. replace (c =? 62) with false by lia. reflexivity.
Qed.
(* unquoted values *)
Lemma unq_run t n : forall k w, (List.length w <= k)%nat -> forall acc x z, forallb (fun c => negb (value_stop c)) w = true -> ws x || (x =? 62) = true -> R (AttrValUnq t n acc) (w ++ x :: z) = R (BeforeAttrName (add_attr t n (acc ++ val_of w))) (x :: z).
Proof.
  induction k as [|k IH]; intros w L acc x z Hw Hx.
  { destruct w; [|cbn in L; lia]. cbn [app]. change (val_of []) with (@nil N). rewrite app_nil_r. destruct (N.eqb_spec x 62) as [->|N62]; [rewrite before_gt; apply run_emit; reflexivity|]. rewrite orb_false_r in Hx. rewrite (run_eat _ _ _ _ _ _ (before_ws _ x z Hx)). apply run_eat. cbn [step]. rewrite Hx. reflexivity. }
  destruct w as [|c w]; [cbn [app]; change (val_of []) with (@nil N); rewrite app_nil_r; destruct (N.eqb_spec x 62) as [->|N62]; [rewrite before_gt; apply run_emit; reflexivity|]; rewrite orb_false_r in Hx; rewrite (run_eat _ _ _ _ _ _ (before_ws _ x z Hx)); apply run_eat; cbn [step]; rewrite Hx; reflexivity|].
  cbn [List.length] in L. cbn [app forallb] in *. apply andb_true_iff in Hw as [Hc Hw]. apply negb_true_iff in Hc. destruct (value_stop_not c Hc) as [Sc N62]. destruct (space_not c Sc) as [Wc N13].
  assert (Rx : refchar x = false /\ x <> 61).
  { destruct (N.eqb_spec x 62) as [->|]; [split; [reflexivity|discriminate]|]. rewrite orb_false_r in Hx. unfold ws in Hx. rewrite !orb_true_iff in Hx. destruct Hx as [[[Hx|Hx]|Hx]|Hx]; apply N.eqb_eq in Hx; subst x; (split; [reflexivity|discriminate]). }
  destruct Rx as [Rx N61].
  destruct (N.eqb_spec c 38) as [->|N38].
  - rewrite val_amp. pose proof (charref_cut true w x z Rx N61) as C. rewrite <- C. destruct (charref true (w ++ x :: z)) as [[v m]|] eqn:E.
    + destruct (charref_chars _ _ _ _ (eq_sym C)) as [Lm _].
      rewrite (run_eatn _ _ _ _ _ [] m (AttrValUnq t n (acc ++ v))); [|cbn [step ws N.eqb Pos.eqb orb]; rewrite E; reflexivity]. cbn [app].
      rewrite run_skipn by (rewrite app_length; lia). rewrite skipn_app. replace (m - List.length w)%nat with O by lia. cbn [skipn].
      rewrite IH; [rewrite app_assoc; reflexivity|rewrite skipn_length; lia| |exact Hx]. rewrite forallb_forall in *. intros y I. apply Hw. rewrite <- (firstn_skipn m w). apply in_or_app. right. exact I.
    + rewrite (run_eat _ _ _ _ _ (AttrValUnq t n (snoc acc 38))); [|cbn [step ws N.eqb Pos.eqb orb]; rewrite E; reflexivity]. rewrite IH by (lia || assumption). unfold snoc. rewrite <- app_assoc. reflexivity.
  - rewrite val_other by exact N38. rewrite (run_eat _ _ _ _ _ (AttrValUnq t n (snoc acc (nul c)))); [|cbn [step]; rewrite Wc; replace (c =? 38) with false by lia; replace (c =? 62) with false by lia; reflexivity].
    rewrite IH by (lia || assumption). unfold snoc. rewrite <- app_assoc. reflexivity.
Qed.
Lemma unq_eof t n : forall k w, (List.length w <= k)%nat -> forall acc, forallb (fun c => negb (value_stop c)) w = true -> R (AttrValUnq t n acc) w = [].
Proof.
  induction k as [|k IH]; intros w L acc Hw; [destruct w; [reflexivity|cbn in L; lia]|].
  destruct w as [|c w]; [reflexivity|].
  cbn [List.length] in L. cbn [forallb] in *. apply andb_true_iff in Hw as [Hc Hw]. apply negb_true_iff in Hc. destruct (value_stop_not c Hc) as [Sc N62]. destruct (space_not c Sc) as [Wc N13].
  destruct (N.eqb_spec c 38) as [->|N38].
  - destruct (charref true w) as [[v m]|] eqn:E.
    + destruct (charref_chars _ _ _ _ E) as [Lm _].
      rewrite (run_eatn _ _ _ _ _ [] m (AttrValUnq t n (acc ++ v))); [|cbn [step ws N.eqb Pos.eqb orb]; rewrite E; reflexivity]. cbn [app].
      rewrite run_skipn by lia. apply IH; [rewrite skipn_length; lia|]. rewrite forallb_forall in *. intros y I. apply Hw. rewrite <- (firstn_skipn m w). apply in_or_app. right. exact I.
    + rewrite (run_eat _ _ _ _ _ (AttrValUnq t n (snoc acc 38))); [|cbn [step ws N.eqb Pos.eqb orb]; rewrite E; reflexivity]. apply IH; lia || assumption.
  - rewrite (run_eat _ _ _ _ _ (AttrValUnq t n (snoc acc (nul c)))); [|cbn [step]; rewrite Wc; replace (c =? 38) with false by lia; replace (c =? 62) with false by lia; reflexivity].
    apply IH; lia || assumption.
Qed.
(* the value *)
Lemma no_cr_stop w : forallb (fun c => negb (value_stop c)) w = true -> ~ In 13 w.
Proof. intros H I. rewrite forallb_forall in H. specialize (H 13 I). discriminate H. Qed.
Lemma value_run t n s : R (BeforeAttrValue t n) (newlines s) = match read_value s with Some (v, s3) => R (BeforeAttrName (add_attr t n (val_of (newlines v)))) (newlines s3) | None => [] end.
Proof.
  rewrite (skip_space _ _ (value_ws t n)). unfold read_value. destruct (drop_while space s) as [|q r] eqn:D; [reflexivity|]. pose proof (drop_while_head _ _ _ _ D) as Hq. destruct (head_ns q r Hq) as [E F]. rewrite E. destruct ((q =? 34) || (q =? 39)) eqn:Q.
  - assert (Hq' : q = 34 \/ q = 39) by lia. rewrite (run_eat _ _ _ _ _ (quoted q t n [])) by (destruct Hq' as [-> | ->]; reflexivity). destruct (find_char q r) as [k|] eqn:Fk.
    + apply find_char_Some in Fk as (a & b & -> & <- & Na). rewrite firstn_app, firstn_all, Nat.sub_diag, app_nil_r. rewrite skipn_app, skipn_all2 by lia. replace (List.length a + 1 - List.length a)%nat with 1%nat by lia. cbn [app skipn].
      assert (Nn : newlines (a ++ q :: b) = newlines a ++ q :: newlines b) by (rewrite newlines_cut by (intros _; destruct Hq' as [-> | ->]; reflexivity); rewrite newlines_cons_other by (destruct Hq' as [-> | ->]; discriminate); reflexivity). rewrite Nn.
      rewrite (quoted_run q t n Hq' (List.length (newlines a))) by (lia || (intros I; apply Na; apply (newlines_in q (List.length a)); [lia|destruct Hq' as [-> | ->]; discriminate|exact I])). cbn [app]. apply after_quoted.
    + apply find_char_None in Fk. apply (quoted_eof q t n Hq' (List.length (newlines r))); [lia|]. intros I. apply Fk. apply (newlines_in q (List.length r)); [lia|destruct Hq' as [-> | ->]; discriminate|exact I].
  - set (w := take_while (fun c => negb (value_stop c)) (q :: r)). set (y := drop_while (fun c => negb (value_stop c)) (q :: r)). assert (Hw : forallb (fun c => negb (value_stop c)) w = true) by apply take_while_all. assert (Hs : q :: r = w ++ y) by apply drop_while_app. rewrite <- E, Hs. rewrite (newlines_app_no_cr w y (no_cr_stop w Hw)), (newlines_id w (no_cr_stop w Hw)).
    destruct y as [|x z] eqn:Ey.
    + rewrite app_nil_r. change (newlines []) with (@nil N). change (R (BeforeAttrName (add_attr t n (val_of w))) []) with (@nil token).
      assert (G : R (BeforeAttrValue t n) w = R (AttrValUnq t n []) w). { rewrite app_nil_r in Hs. rewrite <- Hs. assert (value_stop q = false) by (rewrite <- Hs in Hw; cbn [forallb] in Hw; destruct (value_stop q); [discriminate Hw|reflexivity]). destruct (value_stop_not q H) as [_ N62]. apply (run_again _ _ _ _ _ [] (AttrValUnq t n [])). cbn [step]. rewrite F. replace (q =? 34) with false by lia. replace (q =? 39) with false by lia. replace (q =? 62) with false by lia. reflexivity. }
      rewrite G. apply (unq_eof t n (List.length w)); [lia|exact Hw].
    + pose proof (drop_while_head (fun c => negb (value_stop c)) (q :: r) x z Ey) as Hx. cbn beta in Hx. apply negb_false_iff in Hx.
      assert (Exz : exists d v, newlines (x :: z) = d :: v /\ ws d || (d =? 62) = true).
      { destruct (value_stop_cases x Hx) as [Hsx| ->]; [|eexists; eexists; split; [apply newlines_cons_other; discriminate|reflexivity]]. destruct (space_cases x Hsx) as [-> | [-> | [-> | [-> | ->]]]]; try (eexists; eexists; split; [apply newlines_cons_other; discriminate|reflexivity]). destruct (ScanComFinal.newlines_head_cr z) as [v Ev]. exists 10, v. split; [exact Ev|reflexivity]. }
      destruct Exz as (d & v & Ev & Hd). rewrite Ev. destruct w as [|q' w'] eqn:Ew.
      * cbn [app] in *. injection Hs as <- <-. assert (q = 62) as ->. { destruct (value_stop_cases q Hx) as [K|K]; [congruence|exact K]. } rewrite (newlines_cons_other 62) in Ev by discriminate. injection Ev as <- <-. change (val_of []) with (@nil N). rewrite before_gt. apply run_emit. reflexivity.
      * injection Hs as <- Hs. pose proof (unq_run t n (List.length (q :: w')) (q :: w') (le_n _) [] d v Hw Hd) as U. change ([] ++ val_of (q :: w')) with (val_of (q :: w')) in U. rewrite <- U. assert (Hq2 : value_stop q = false) by (cbn [forallb] in Hw; destruct (value_stop q); [discriminate Hw|reflexivity]). destruct (value_stop_not q Hq2) as [_ N62]. cbn [app]. apply (run_again _ _ _ _ _ [] (AttrValUnq t n [])). cbn [step]. rewrite F. replace (q =? 34) with false by lia. replace (q =? 39) with false by lia. replace (q =? 62) with false by lia. reflexivity.
Qed.

(* ---------- the loop ---------- *)
Definition add_pair (t : tag) (p : str * str) : tag := add_attr t (name_of (fst p)) (val_of (newlines (snd p))).
Definition finish (t : tag) (r : scanned) : list token :=
  let t := fold_left add_pair (pairs r) t in
  if tag_closed r then
    if t_end t then TEnd (t_name t) :: run sc O last Data (newlines (rest r))
    else TStart (t_name t) (t_attrs t) (self_closing r) :: run sc O (t_name t) (switch sc (t_name t)) (newlines (rest r))
  else [].
Lemma dw_len p (s : str) : (List.length (drop_while p s) <= List.length s)%nat.
Proof. induction s as [|c s IH]; [cbn; lia|]. cbn [drop_while]. destruct (p c); cbn [List.length]; lia. Qed.
Lemma read_len s v r : read_value s = Some (v, r) -> (List.length r <= List.length s)%nat.
Proof.
  unfold read_value. pose proof (dw_len space s). destruct (drop_while space s) as [|q t] eqn:D; [intros E; injection E as <- <-; cbn; lia|]. destruct ((q =? 34) || (q =? 39)).
  - destruct (find_char q t) as [k|]; [|discriminate]. intros E. assert (r = skipn (k + 1) t) as -> by congruence. rewrite skipn_length. cbn [List.length] in *. lia.
  - intros E. assert (r = drop_while (fun c => negb (value_stop c)) (q :: t)) as -> by congruence. pose proof (dw_len (fun c => negb (value_stop c)) (q :: t)). lia.
Qed.
Lemma name_ne c w : name_of (c :: w) <> []. Proof. discriminate. Qed.
Lemma scan_run fuel : forall s t acc, (List.length s < fuel)%nat -> R (BeforeAttrName (fold_left add_pair acc t)) (newlines s) = finish t (scan false fuel acc s).
Proof.
  induction fuel as [|fuel IH]; intros s t acc L; [lia|]. rewrite (skip_space _ _ (before_ws _)). cbn [scan]. pose proof (dw_len space s) as Ld. destruct (drop_while space s) as [|ch r] eqn:D; [reflexivity|]. pose proof (drop_while_head _ _ _ _ D) as Hc. destruct (head_ns ch r Hc) as [E F]. rewrite E. cbn [List.length] in Ld.
  destruct (N.eqb_spec ch 62) as [->|N62]; [rewrite before_gt; reflexivity|]. cbn [andb orb]. rewrite orb_false_r.
  destruct (N.eqb_spec ch 47) as [->|N47].
  - cbn [andb orb]. rewrite before_slash. destruct (starts [62] r) eqn:S1.
    + apply starts_spec in S1 as [z ->]. cbn [app tl]. rewrite newlines_cons_other by discriminate. apply (run_emit _ _ _ _ _ _ true). reflexivity.
    + rewrite <- IH by lia. destruct r as [|x r]; [reflexivity|]. assert (Nx : x <> 62) by (intros ->; destruct r; discriminate S1). destruct (N.eqb_spec x 13) as [->|N13].
      * destruct (ScanComFinal.newlines_head_cr r) as [w Ew]. rewrite Ew. apply self_other. discriminate.
      * rewrite newlines_cons_other by exact N13. apply self_other. exact Nx.
  - cbn [andb orb]. set (w := take_while (fun c => negb (name_stop c)) r). set (y := drop_while (fun c => negb (name_stop c)) r). assert (Hw : forallb (fun c => negb (name_stop c)) w = true) by apply take_while_all. assert (Hs : r = w ++ y) by apply drop_while_app.
    assert (Ly : (List.length y <= List.length r)%nat) by apply dw_len. pose proof (dw_len space y) as Ls.
    set (T := fold_left add_pair acc t).
    assert (A : R (BeforeAttrName T) (ch :: newlines r) = R (AttrName T (name_of (ch :: w))) (newlines y)).
    { assert (E0 : R (BeforeAttrName T) (ch :: newlines r) = R (AttrName T [nul (alow_c ch)]) (newlines r)).
      { destruct (N.eqb_spec ch 61) as [->|N61]; [apply run_eat; reflexivity|]. rewrite (run_again _ _ _ _ _ [] (AttrName T [])) by (cbn [step]; rewrite F; replace (ch =? 47) with false by lia; replace (ch =? 62) with false by lia; replace (ch =? 61) with false by lia; reflexivity). cbn [app]. apply run_eat. cbn [step]. rewrite F. replace (ch =? 47) with false by lia; replace (ch =? 62) with false by lia; replace (ch =? 61) with false by lia. reflexivity. }
      rewrite E0. rewrite Hs at 1. rewrite (name_run T w _ y Hw). reflexivity. }
    assert (Hy : match y with c :: _ => name_stop c = true | [] => True end).
    { destruct y as [|x z] eqn:Ey; [exact Logic.I|]. pose proof (drop_while_head (fun c => negb (name_stop c)) r x z Ey) as K. cbn beta in K. apply negb_false_iff in K. exact K. }
    rewrite A. rewrite (after_name T (name_of (ch :: w)) y (name_ne ch w) Hy).
    assert (Fd : forall v, add_attr T (name_of (ch :: w)) (val_of (newlines v)) = fold_left add_pair (acc ++ [(ch :: w, v)]) t) by (intros v; rewrite fold_left_app; reflexivity).
    destruct (drop_while space y) as [|e r2] eqn:Dy.
    + rewrite <- IH by (cbn; lia). reflexivity.
    + cbn [List.length] in Ls. destruct (e =? 61).
      * rewrite value_run. destruct (read_value r2) as [[v s3]|] eqn:Rv; [|reflexivity]. rewrite Fd. apply IH. pose proof (read_len _ _ _ Rv). lia.
      * pose proof (Fd []) as Fd0. change (val_of (newlines [])) with (@nil N) in Fd0. rewrite Fd0. apply IH. cbn [List.length]. lia.
Qed.
End Run.
