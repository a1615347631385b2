(* Facts about the tokenizer specification itself. *)
From Coq Require Import Lia ZifyBool ZifyN ZifyNat.
From Verif Require Import Str StrFacts EntityTable HtmlCharRefSpec HtmlTokSpec.
Open Scope N_scope.

(* ---------- the reconsume bound in [resolve] is never reached ---------- *)
Definition rank (s : state) : nat :=
  match s with
  | TagOpen | EndTagOpen => 3
  | RawLT _ => 4 | RawEndOpen _ => 4 | RawEndName _ _ => 3
  | ScriptEscStart | ScriptEscStartDash => 1
  | ScriptDblStart _ => 2 | ScriptDblLT => 1 | ScriptDblEnd _ => 1
  | AfterAttrValQuoted _ | SelfClosing _ => 5
  | BeforeAttrName _ => 4
  | MarkupDecl => 1 | BeforeAttrValue _ _ => 1
  | CommentStart | CommentStartDash => 1
  | CommentLT _ | CommentLTBang _ => 1
  | CommentLTBangDash _ => 3 | CommentLTBangDashDash _ => 2
  | CommentEndDash _ | CommentEnd _ | CommentEndBang _ => 1
  | Doctype => 1
  | AfterDoctypeName _ | AfterPubKw _ | BeforePubId _ | AfterPubId _ | BetweenPubSys _ | AfterSysKw _ | BeforeSysId _ | AfterSysId _ => 1
  | _ => 0
  end.
(* AttrName and AfterAttrName hand a character back and forth depending on it *)
Definition rank' (s : state) (c : N) : nat :=
  match s with
  | AttrName _ _ => if ws c || (c =? 47) || (c =? 62) then 2 else 0
  | AfterAttrName _ _ => 1
  | _ => rank s
  end.

Ltac split_ifs := repeat match goal with
  | |- context [if ?b then _ else _] => destruct b eqn:?
  | |- context [match ?b with RRcdata => _ | RRawtext => _ | RScript => _ | RScriptEsc => _ end] => destruct b
  end.

Lemma rank_decreases last s c rest e s' : step last s c rest = Again e s' -> (rank' s' c < rank' s c)%nat.
Proof.
  destruct s; cbn [step]; unfold eat, out; intros H;
  repeat match type of H with
  | (if ?b then _ else _) = _ => destruct b eqn:?
  | (match ?o with Some _ => _ | None => _ end) = _ => destruct o as [[? ?]|]
  | (match ?r with RRcdata => _ | RRawtext => _ | RScript => _ | RScriptEsc => _ end) = _ => destruct r
  end; try discriminate; injection H as <- <-; cbn [rank' rank raw_state];
  try match goal with r : raw |- _ => destruct r; cbn [rank' rank raw_state] end;
  try lia; split_ifs; try lia.

Qed.

Lemma rank'_bound s c : (rank' s c <= 5)%nat.
Proof. destruct s; cbn; try lia. destruct (_ || _); lia. Qed.

(* The value returned when the bound is reached never occurs: more fuel changes nothing. *)
Lemma resolve_enough sc k : forall last s c rest, (rank' s c < k)%nat ->
  resolve sc (S k) last s c rest = resolve sc k last s c rest.
Proof.
  induction k as [|k IH]; intros last s c rest Hr; [lia|].
  cbn [resolve]. destruct (step last s c rest) as [e n s'|e s'|t b] eqn:E; try reflexivity.
  pose proof (rank_decreases _ _ _ _ _ _ E) as Hd.
  specialize (IH last s' c rest ltac:(lia)). cbn [resolve] in IH. rewrite IH. reflexivity.
Qed.

(* ---------- one-step unfolding ---------- *)
Lemma run_cons sc last s c rest :
  run sc O last s (c :: rest) = (let '(e, n, s', last') := resolve sc 6 last s c rest in (e ++ run sc n last' s' rest)%list).
Proof. reflexivity. Qed.

Lemma run_skip sc last s p rest : run sc (List.length p) last s (p ++ rest)%list = run sc O last s rest.
Proof. induction p as [|x p IH]; [reflexivity|exact IH]. Qed.

Ltac step1 := rewrite run_cons; cbn [resolve step eat out app].

Lemma run_eat sc last s c rest s' : step last s c rest = Eat [] O s' -> run sc O last s (c :: rest) = run sc O last s' rest.
Proof. intros H. rewrite run_cons. cbn [resolve]. rewrite H. reflexivity. Qed.
Lemma run_out sc last s c rest d s' : step last s c rest = Eat [TChar d] O s' ->
  run sc O last s (c :: rest) = TChar d :: run sc O last s' rest.
Proof. intros H. rewrite run_cons. cbn [resolve]. rewrite H. reflexivity. Qed.
Lemma run_eatn sc last s c rest e n s' : step last s c rest = Eat e n s' ->
  run sc O last s (c :: rest) = (e ++ run sc n last s' rest)%list.
Proof. intros H. rewrite run_cons. cbn [resolve]. rewrite H. reflexivity. Qed.
Lemma run_emit sc last s c rest t b : step last s c rest = Emit t b ->
  run sc O last s (c :: rest) =
    if t_end t then TEnd (t_name t) :: run sc O last Data rest
    else TStart (t_name t) (t_attrs t) b :: run sc O (t_name t) (switch sc (t_name t)) rest.
Proof. intros H. rewrite run_cons. cbn [resolve]. rewrite H. destruct (t_end t); reflexivity. Qed.
Lemma run_again sc last s c rest e s' : step last s c rest = Again e s' ->
  run sc O last s (c :: rest) = (e ++ run sc O last s' (c :: rest))%list.
Proof.
  intros H. rewrite !run_cons. cbn [resolve]. rewrite H.
  pose proof (rank_decreases _ _ _ _ _ _ H) as Hd. pose proof (rank'_bound s c).
  pose proof (resolve_enough sc 5 last s' c rest ltac:(lia)) as E. cbn [resolve] in E. rewrite <- E.
  destruct (match step last s' c rest with Eat _ _ _ => _ | _ => _ end) as [[[e' n] s''] l'].
  rewrite app_assoc. reflexivity.
Qed.

(* ---------- the five character references the serializer writes, whatever follows ---------- *)
Lemma charref_amp a rest : charref a (u "amp;" ++ rest)%list = Some ([38], 4%nat).
Proof. destruct a; vm_compute; reflexivity. Qed.
Lemma charref_lt a rest : charref a (u "lt;" ++ rest)%list = Some ([60], 3%nat).
Proof. destruct a; vm_compute; reflexivity. Qed.
Lemma charref_gt a rest : charref a (u "gt;" ++ rest)%list = Some ([62], 3%nat).
Proof. destruct a; vm_compute; reflexivity. Qed.
Lemma charref_quot a rest : charref a (u "quot;" ++ rest)%list = Some ([34], 5%nat).
Proof. destruct a; vm_compute; reflexivity. Qed.
Lemma charref_39 a rest : charref a (u "#39;" ++ rest)%list = Some ([39], 4%nat).
Proof. destruct a; vm_compute; reflexivity. Qed.

(* ---------- input preprocessing ---------- *)
Lemma newlines_id s : ~ In 13 s -> newlines s = s.
Proof.
  induction s as [|c s IH]; intros H; [reflexivity|].
  assert (Hc : c <> 13) by (intros ->; apply H; left; reflexivity).
  assert (Hs : newlines s = s) by (apply IH; intros Hi; apply H; right; exact Hi).
  cbn [newlines]. rewrite Hs. destruct c as [|p]; [reflexivity|]. do 4 (destruct p; try reflexivity). congruence.
Qed.
Lemma newlines_cons_other c s : c <> 13 -> newlines (c :: s) = c :: newlines s.
Proof. intros H. cbn [newlines]. destruct c as [|p]; [reflexivity|]. do 4 (destruct p; try reflexivity). congruence. Qed.
Lemma newlines_app_no_cr a b : ~ In 13 a -> newlines (a ++ b)%list = (a ++ newlines b)%list.
Proof.
  induction a as [|c a IH]; intros H; [reflexivity|]. cbn [app].
  rewrite newlines_cons_other by (intros ->; apply H; left; reflexivity). f_equal. apply IH. intros Hi; apply H; right; exact Hi.
Qed.

Lemma chars_app a b : chars (a ++ b)%list = (chars a ++ chars b)%list.
Proof. apply map_app. Qed.

(* ---------- outside raw text the "last start tag" register is irrelevant ---------- *)
Definition free (s : state) : bool :=
  match s with
  | Rcdata | Rawtext | ScriptData | RawLT _ | RawEndOpen _ | RawEndName _ _
  | ScriptEscStart | ScriptEscStartDash | ScriptEsc | ScriptEscDash | ScriptEscDashDash
  | ScriptDblStart _ | ScriptDbl | ScriptDblDash | ScriptDblDashDash | ScriptDblLT | ScriptDblEnd _ => false
  | _ => true
  end.
Lemma free_step l1 l2 s c rest : free s = true -> step l1 s c rest = step l2 s c rest.
Proof. destruct s; intros H; try discriminate H; reflexivity. Qed.
Lemma free_next l s c rest : free s = true ->
  match step l s c rest with Eat _ _ s' => free s' = true | Again _ s' => free s' = true | Emit _ _ => True end.
Proof.
  destruct s; intros H; try discriminate H; cbn [step]; unfold eat, out;
  repeat match goal with
  | |- context [if ?b then _ else _] => destruct b
  | |- context [match ?o with Some _ => _ | None => _ end] => destruct o as [[? ?]|]
  end; exact I || reflexivity.
Qed.
Lemma free_resolve sc k : forall l1 l2 s c rest, free s = true ->
  let '(e1, n1, s1, m1) := resolve sc k l1 s c rest in
  let '(e2, n2, s2, m2) := resolve sc k l2 s c rest in
  e1 = e2 /\ n1 = n2 /\ s1 = s2 /\ (m1 = m2 \/ free s1 = true).
Proof.
  induction k as [|k IH]; intros l1 l2 s c rest Hf; cbn [resolve]; rewrite (free_step l2 l1 s c rest Hf);
  pose proof (free_next l1 s c rest Hf) as Hn; destruct (step l1 s c rest) as [e n s'|e s'|t b]; auto.
  - destruct (t_end t); auto.
  - specialize (IH l1 l2 s' c rest Hn). destruct (resolve sc k l1 s' c rest) as [[[? ?] ?] ?]. destruct (resolve sc k l2 s' c rest) as [[[? ?] ?] ?].
    destruct IH as (-> & -> & -> & H). auto.
  - destruct (t_end t); auto.
Qed.
Lemma run_free sc input : forall k l1 l2 s, free s = true -> run sc k l1 s input = run sc k l2 s input.
Proof.
  induction input as [|c t IH]; intros k l1 l2 s Hf; [reflexivity|]. destruct k; cbn [run]; [|apply IH; exact Hf].
  pose proof (free_resolve sc 6 l1 l2 s c t Hf) as H. destruct (resolve sc 6 l1 s c t) as [[[e1 n1] s1] m1]. destruct (resolve sc 6 l2 s c t) as [[[e2 n2] s2] m2].
  destruct H as (-> & -> & -> & [->|H]); [reflexivity|]. rewrite (IH n2 m1 m2 s2 H). reflexivity.
Qed.
