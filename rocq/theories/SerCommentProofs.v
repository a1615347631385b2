(* Proofs: comments, processing instructions, doctypes (SerializerModel.v) read by HtmlTokSpec.v *)
From Coq Require Import Wf_nat Lia ZifyBool ZifyN ZifyNat.
From Verif Require Import Str StrFacts HtmlCharRefSpec HtmlTokSpec TokFacts SerializerModel SerTreeSpec SerEscapeProofs.
Open Scope N_scope.

(* ---------- the double-dash loop ---------- *)
(* its closed form: a space between any two adjacent dashes *)
Fixpoint dash_sep (prev : bool) (s : str) : str :=
  match s with
  | [] => []
  | c :: t => if c =? 45 then (if prev then 32 :: 45 :: dash_sep true t else 45 :: dash_sep true t)
              else c :: dash_sep false t
  end.
(* no two adjacent dashes *)
Fixpoint nodd (prev : bool) (s : str) : bool :=
  match s with
  | [] => true
  | c :: t => if c =? 45 then negb prev && nodd true t else nodd false t
  end.
(* no three adjacent dashes; k = length of the current run *)
Fixpoint ok2 (k : nat) (s : str) : bool :=
  match s with
  | [] => true
  | c :: t => if c =? 45 then Nat.ltb k 2 && ok2 (S k) t else ok2 O t
  end.

Definition R (s : str) : str := replace [45; 45] [45; 32; 45] s.
Lemma R_dd t : R (45 :: 45 :: t) = 45 :: 32 :: 45 :: R t.
Proof. reflexivity. Qed.
Lemma R_d_nil : R [45] = [45]. Proof. reflexivity. Qed.
Lemma R_nil : R [] = []. Proof. reflexivity. Qed.
Lemma R_d_other c t : c <> 45 -> R (45 :: c :: t) = 45 :: R (c :: t).
Proof.
  intros H. unfold R, replace. cbn [replace_go starts]. change (45 =? 45) with true. cbn [andb].
  replace (45 =? c) with false by lia. reflexivity.
Qed.
Lemma R_other c t : c <> 45 -> R (c :: t) = c :: R t.
Proof. intros H. unfold R, replace. cbn [replace_go starts]. replace (45 =? c) with false by lia. reflexivity. Qed.

Lemma dd_ind (P : str -> Prop) :
  P [] -> P [45] -> (forall t, P t -> P (45 :: 45 :: t)) -> (forall c t, c <> 45 -> P (c :: t) -> P t -> P (45 :: c :: t)) ->
  (forall c t, c <> 45 -> P t -> P (c :: t)) -> forall s, P s.
Proof.
  intros H0 H1 H2 H3 H4 s. remember (List.length s) as n eqn:En. revert s En.
  induction n as [n IH] using lt_wf_ind. intros s ->.
  destruct s as [|c s]; [exact H0|]. destruct (N.eq_dec c 45) as [->|Hc].
  - destruct s as [|d s]; [exact H1|]. destruct (N.eq_dec d 45) as [->|Hd].
    + apply H2. apply (IH (List.length s)); cbn; lia.
    + apply H3; [exact Hd| |]; [apply (IH (List.length (d :: s)))|apply (IH (List.length s))]; cbn; lia.
  - apply H4; [exact Hc|]. apply (IH (List.length s)); cbn; lia.
Qed.

Lemma dash_sep_R s : forall prev, dash_sep prev (R s) = dash_sep prev s.
Proof.
  induction s as [| |t IH|c t Hc IH1 IH|c t Hc IH] using dd_ind; intros prev; try reflexivity.
  - rewrite R_dd. cbn [dash_sep]. change (45 =? 45) with true. change (32 =? 45) with false. cbv iota.
    rewrite IH. destruct prev; reflexivity.
  - rewrite R_d_other by exact Hc. cbn [dash_sep]. change (45 =? 45) with true. cbv iota.
    specialize (IH1 true). rewrite IH1. reflexivity.
  - rewrite R_other by exact Hc. cbn [dash_sep]. replace (c =? 45) with false by lia. rewrite IH. reflexivity.
Qed.

Lemma ok2_R s : ok2 0 (R s) = true /\ ok2 1 (R s) = true.
Proof.
  induction s as [| |t IH|c t Hc IH1 IH|c t Hc IH] using dd_ind; try (split; reflexivity).
  - rewrite R_dd. cbn. tauto.
  - rewrite R_d_other, R_other by exact Hc. cbn. replace (c =? 45) with false by lia. tauto.
  - rewrite R_other by exact Hc. cbn. replace (c =? 45) with false by lia. tauto.
Qed.

Lemma nodd_R s : ok2 0 s = true -> nodd false (R s) = true.
Proof.
  induction s as [| |t IH|c t Hc IH1 IH|c t Hc IH] using dd_ind; try reflexivity.
  - rewrite R_dd. cbn. intros H. destruct t as [|c t]; [reflexivity|]. cbn in H.
    destruct (N.eqb_spec c 45) as [->|Hc]; [discriminate|]. rewrite R_other in * by exact Hc. cbn. replace (c =? 45) with false by lia.
    cbn in IH. replace (c =? 45) with false in IH by lia. apply IH; exact H.
  - rewrite R_d_other, R_other by exact Hc. cbn. replace (c =? 45) with false by lia. exact IH.
  - rewrite R_other by exact Hc. cbn. replace (c =? 45) with false by lia. exact IH.
Qed.

Lemma contains_dd s : contains [45; 45] s = negb (nodd false s).
Proof.
  assert (H : forall s, (find [45;45] s = None <-> nodd false s = true) /\ (find [45;45] (45 :: s) = None <-> nodd true s = true)).
  { clear s. induction s as [|c t [IH1 IH2]].
    - split; vm_compute; split; reflexivity.
    - split.
      + destruct (N.eq_dec c 45) as [->|Hc].
        * rewrite IH2. cbn [nodd]. change (45 =? 45) with true. reflexivity.
        * cbn [find starts nodd]. replace (45 =? c) with false by lia. cbn [andb]. replace (c =? 45) with false by lia.
          rewrite <- IH1. destruct (find [45;45] t); cbn; split; congruence.
      + cbn [nodd]. destruct (N.eqb_spec c 45) as [->|Hc].
        * cbn. split; discriminate.
        * rewrite <- IH1. cbn [find starts]. change (45 =? 45) with true. replace (45 =? c) with false by lia. cbn [andb].
          destruct (find [45;45] t); cbn; split; congruence. }
  unfold contains. destruct (H s) as [[A B] _]. destruct (find [45;45] s) as [n|].
  - destruct (nodd false s); [exfalso; specialize (B eq_refl); discriminate|reflexivity].
  - rewrite A by reflexivity. reflexivity.
Qed.

Lemma nodd_dash_sep s : forall prev, nodd prev s = true -> dash_sep prev s = s.
Proof.
  induction s as [|c t IH]; intros prev; [reflexivity|]. cbn [nodd dash_sep].
  destruct (N.eqb_spec c 45) as [->|Hc].
  - intros H; apply andb_prop in H; destruct H as [Hp H]. destruct prev; [discriminate|]. rewrite IH by exact H. reflexivity.
  - intros H. rewrite IH by exact H. reflexivity.
Qed.

Lemma dash_loop_S f s : dash_loop (S f) s = if contains [45;45] s then dash_loop f (R s) else Some s.
Proof. reflexivity. Qed.

Lemma dash_loop_enough s : dash_loop 3 s = Some (dash_sep false s).
Proof.
  rewrite dash_loop_S, contains_dd.
  destruct (nodd false s) eqn:E0; cbn [negb]; [rewrite nodd_dash_sep by exact E0; reflexivity|].
  rewrite dash_loop_S, contains_dd. destruct (nodd false (R s)) eqn:E1; cbn [negb].
  - f_equal. rewrite <- (dash_sep_R s). symmetry. apply nodd_dash_sep; exact E1.
  - rewrite dash_loop_S, contains_dd. pose proof (nodd_R (R s) (proj1 (ok2_R s))) as E2. rewrite E2. cbn [negb].
    f_equal. rewrite <- (dash_sep_R s), <- (dash_sep_R (R s)). symmetry. apply nodd_dash_sep; exact E2.
Qed.

Lemma nodd_of_dash_sep s : forall prev, nodd prev (dash_sep prev s) = true.
Proof.
  induction s as [|c t IH]; intros prev; [reflexivity|]. cbn [dash_sep].
  destruct (N.eqb_spec c 45) as [->|Hc].
  - destruct prev; cbn; apply IH.
  - cbn. replace (c =? 45) with false by lia. apply IH.
Qed.

(* ---------- comment data that cannot close the comment ---------- *)
(* no two adjacent dashes (counting a pending one) and no dash at the end *)
Fixpoint ok_comment (pend : bool) (s : str) : bool :=
  match s with
  | [] => negb pend
  | c :: t => if c =? 45 then negb pend && ok_comment true t else ok_comment false t
  end.

Lemma ok_comment_of s : forall p, nodd p s = true -> ends [45] s = false -> (s = [] -> p = false) -> ok_comment p s = true.
Proof.
  induction s as [|c t IH]; intros p Hn He Hp; [rewrite Hp by reflexivity; reflexivity|].
  cbn [nodd ok_comment] in *.
  assert (He' : t <> [] -> ends [45] t = false).
  { intros Hne. unfold ends in *. cbn [rev] in He. cbn [rev app] in *. destruct (rev t) as [|x r] eqn:Er.
    - exfalso. apply Hne. rewrite <- (rev_involutive t), Er. reflexivity.
    - cbn in He |- *. exact He. }
  destruct (N.eqb_spec c 45) as [->|Hc].
  - apply andb_prop in Hn; destruct Hn as [Hp' Hn]. rewrite Hp'. cbn [andb].
    destruct t as [|d t]; [vm_compute in He; discriminate|]. apply IH; [exact Hn|apply He'; discriminate|discriminate].
  - destruct t as [|d t]; [reflexivity|]. apply IH; [exact Hn|apply He'; discriminate|discriminate].
Qed.

Lemma nodd_app_sp s : forall p, nodd p (s ++ [32])%list = nodd p s.
Proof. induction s as [|c t IH]; intros p; [reflexivity|]. cbn [app nodd]. rewrite !IH. reflexivity. Qed.
Lemma nodd_cons_sp s p : nodd false s = true -> nodd p (32 :: s) = true.
Proof. intros H; exact H. Qed.
Lemma ends_app_sp s : ends [45] (s ++ [32])%list = false.
Proof. unfold ends. rewrite rev_app_distr. reflexivity. Qed.

Lemma serialize_comment_data_ok d :
  let o := serialize_comment_data d in
  ok_comment false o = true /\ starts [62] o = false /\ starts [45; 62] o = false.
Proof.
  unfold serialize_comment_data, serialize_comment_data_opt. destruct d as [|c t]; [cbn; auto|].
  rewrite dash_loop_enough. set (o0 := dash_sep false (c :: t)).
  assert (H0 : nodd false o0 = true) by apply nodd_of_dash_sep.
  set (o1 := if starts [62] o0 || starts [45; 62] o0 then 32 :: o0 else o0).
  assert (H1 : nodd false o1 = true /\ starts [62] o1 = false /\ starts [45;62] o1 = false).
  { unfold o1. destruct (starts [62] o0) eqn:E1; [cbn; auto|]. destruct (starts [45;62] o0) eqn:E2; [cbn; auto|]. auto. }
  destruct H1 as (H1 & S1 & S2).
  assert (Hs : forall o, starts [62] o = false -> starts [45;62] o = false -> o <> [45] ->
                 starts [62] (o ++ [32])%list = false /\ starts [45;62] (o ++ [32])%list = false).
  { intros [|a [|b o]] A B C; cbn in *; [auto| |auto].
    destruct (N.eq_dec a 45) as [->|]; [congruence|]. replace (45 =? a) with false by lia. auto. }
  assert (Hs1 : starts [62] ([45] ++ [32])%list = false /\ starts [45;62] ([45] ++ [32])%list = false) by (cbn; auto).
  assert (Hs' : forall o, starts [62] o = false -> starts [45;62] o = false ->
                 starts [62] (o ++ [32])%list = false /\ starts [45;62] (o ++ [32])%list = false).
  { intros o A B. destruct (list_eq_dec N.eq_dec o [45]) as [->|]; [exact Hs1|auto]. }
  set (o2 := if ends (u "<!-") o1 then (o1 ++ [32])%list else o1).
  assert (H2 : nodd false o2 = true /\ starts [62] o2 = false /\ starts [45;62] o2 = false).
  { unfold o2. destruct (ends (u "<!-") o1); [|auto]. rewrite nodd_app_sp. split; [exact H1|auto]. }
  destruct H2 as (H2 & T1 & T2). cbv zeta.
  destruct (ends [45] o2) eqn:E.
  - split; [|auto]. apply ok_comment_of; [rewrite nodd_app_sp; exact H2|apply ends_app_sp|reflexivity].
  - split; [|auto]. apply ok_comment_of; [exact H2|exact E|reflexivity].
Qed.

(* ---------- running the comment states over such data ---------- *)
Inductive cstate : state -> str -> bool -> Prop :=
| cs_comment d : cstate (Comment d) d false
| cs_lt d : cstate (CommentLT d) d false
| cs_bang d : cstate (CommentLTBang d) d false
| cs_bangdash d : cstate (CommentLTBangDash d) d true
| cs_enddash d : cstate (CommentEndDash d) d true.

Definition dash_if (b : bool) : str := if b then [45] else [].

Lemma run_comment_char sc last d c rest : c <> 45 ->
  exists s', cstate s' (d ++ [nul c])%list false /\ run sc O last (Comment d) (c :: rest) = run sc O last s' rest.
Proof.
  intros Hc. destruct (N.eq_dec c 60) as [->|H60].
  - exists (CommentLT (snoc d 60)). split; [constructor|]. apply run_eat. reflexivity.
  - exists (Comment (snoc d (nul c))). split; [constructor|]. apply run_eat. cbn [step].
    replace (c =? 60) with false by lia. replace (c =? 45) with false by lia. reflexivity.
Qed.
Lemma run_comment_dash sc last d rest : run sc O last (Comment d) (45 :: rest) = run sc O last (CommentEndDash d) rest.
Proof. apply run_eat. reflexivity. Qed.

Lemma run_enddash_other sc last d c rest : c <> 45 ->
  run sc O last (CommentEndDash d) (c :: rest) = run sc O last (Comment (d ++ [45])%list) (c :: rest).
Proof.
  intros Hc. rewrite (run_again _ _ _ _ _ [] (Comment (snoc d 45))); [reflexivity|]. cbn [step].
  replace (c =? 45) with false by lia. reflexivity.
Qed.

Lemma cstate_step sc last s d p c rest : cstate s d p -> (p = true -> c <> 45) ->
  exists s' d' p', cstate s' d' p' /\ (d' ++ dash_if p' = d ++ dash_if p ++ [nul c])%list /\ p' = (c =? 45) /\
    run sc O last s (c :: rest) = run sc O last s' rest.
Proof.
  intros Hs Hp.
  assert (Hcom : forall d, exists s' d' p', cstate s' d' p' /\ (d' ++ dash_if p' = d ++ [nul c])%list /\ p' = (c =? 45) /\
    run sc O last (Comment d) (c :: rest) = run sc O last s' rest).
  { intros d0. destruct (N.eq_dec c 45) as [->|Hc].
    - exists (CommentEndDash d0), d0, true. split; [constructor|]. split; [reflexivity|]. split; [reflexivity|]. apply run_comment_dash.
    - destruct (run_comment_char sc last d0 c rest Hc) as (s' & H1 & H2). exists s', (d0 ++ [nul c])%list, false.
      split; [exact H1|]. split; [apply app_nil_r|]. split; [lia|exact H2]. }
  destruct Hs as [d|d|d|d|d].
  - apply Hcom.
  - destruct (N.eq_dec c 33) as [->|H33].
    + exists (CommentLTBang (snoc d 33)), (snoc d 33), false. split; [constructor|]. split; [apply app_nil_r|]. split; [reflexivity|]. apply run_eat. reflexivity.
    + destruct (N.eq_dec c 60) as [->|H60].
      * exists (CommentLT (snoc d 60)), (snoc d 60), false. split; [constructor|]. split; [apply app_nil_r|]. split; [reflexivity|]. apply run_eat. reflexivity.
      * destruct (Hcom d) as (s' & d' & p' & A & B & C & D). exists s', d', p'. repeat split; try assumption. rewrite <- D.
        rewrite (run_again _ _ _ _ _ [] (Comment d)); [reflexivity|]. cbn [step]. replace (c =? 33) with false by lia. replace (c =? 60) with false by lia. reflexivity.
  - destruct (N.eq_dec c 45) as [->|Hc].
    + exists (CommentLTBangDash d), d, true. split; [constructor|]. split; [reflexivity|]. split; [reflexivity|]. apply run_eat. reflexivity.
    + destruct (Hcom d) as (s' & d' & p' & A & B & C & D). exists s', d', p'. repeat split; try assumption. rewrite <- D.
      rewrite (run_again _ _ _ _ _ [] (Comment d)); [reflexivity|]. cbn [step]. replace (c =? 45) with false by lia. reflexivity.
  - specialize (Hp eq_refl). destruct (Hcom (d ++ [45])%list) as (s' & d' & p' & A & B & C & D). exists s', d', p'.
    split; [exact A|]. split; [rewrite B; cbn [dash_if]; rewrite <- app_assoc; reflexivity|]. split; [exact C|]. rewrite <- D.
    rewrite (run_again _ _ _ _ _ [] (CommentEndDash d)); [|cbn [step]; replace (c =? 45) with false by lia; reflexivity].
    cbn [app]. apply run_enddash_other; exact Hp.
  - specialize (Hp eq_refl). destruct (Hcom (d ++ [45])%list) as (s' & d' & p' & A & B & C & D). exists s', d', p'.
    split; [exact A|]. split; [rewrite B; cbn [dash_if]; rewrite <- app_assoc; reflexivity|]. split; [exact C|]. rewrite <- D.
    apply run_enddash_other; exact Hp.
Qed.

Lemma run_comment_end sc last s d rest : cstate s d false ->
  run sc O last s (45 :: 45 :: 62 :: rest) = TComment d :: run sc O last Data rest.
Proof.
  assert (HC : forall d, run sc O last (Comment d) (45 :: 45 :: 62 :: rest) = TComment d :: run sc O last Data rest).
  { intros d0. rewrite run_comment_dash. rewrite (run_eat _ _ _ _ _ (CommentEnd d0)) by reflexivity.
    rewrite (run_eatn _ _ _ _ _ [TComment d0] 0 Data) by reflexivity. reflexivity. }
  intros Hs. inversion Hs; subst.
  - apply HC.
  - rewrite (run_again _ _ _ _ _ [] (Comment d)) by reflexivity. apply HC.
  - rewrite (run_eat _ _ _ _ _ (CommentLTBangDash d)) by reflexivity.
    rewrite (run_eat _ _ _ _ _ (CommentLTBangDashDash d)) by reflexivity.
    rewrite (run_again _ _ _ _ _ [] (CommentEnd d)) by reflexivity. cbn [app].
    rewrite (run_eatn _ _ _ _ _ [TComment d] 0 Data) by reflexivity. reflexivity.
Qed.

Lemma run_comment_data sc last T : forall s d p rest, cstate s d p -> ok_comment p T = true ->
  run sc O last s (T ++ 45 :: 45 :: 62 :: rest)%list
  = TComment (d ++ dash_if p ++ map nul T)%list :: run sc O last Data rest.
Proof.
  induction T as [|c T IH]; intros s d p rest Hs Hok; cbn [ok_comment] in Hok.
  - destruct p; [discriminate|]. cbn [app map dash_if]. rewrite app_nil_r. apply run_comment_end; exact Hs.
  - cbn [app]. destruct (cstate_step sc last s d p c (T ++ 45 :: 45 :: 62 :: rest)%list Hs) as (s' & d' & p' & A & B & C & ->).
    { intros -> ->. cbn in Hok. discriminate. }
    rewrite (IH s' d' p'); [|exact A|].
    + f_equal. f_equal. rewrite app_assoc, B, <- !app_assoc. reflexivity.
    + rewrite C. destruct (N.eqb_spec c 45) as [->|Hc]; [apply andb_prop in Hok; tauto|exact Hok].
Qed.

Lemma comment_reads sc last T rest : ok_comment false T = true -> starts [62] T = false -> starts [45; 62] T = false ->
  run sc O last Data (u "<!--" ++ T ++ u "-->" ++ rest)%list = TComment (map nul T) :: run sc O last Data rest.
Proof.
  intros Hok H1 H2. change (u "<!--") with [60; 33; 45; 45]. change (u "-->" ++ rest)%list with (45 :: 45 :: 62 :: rest). cbn [app].
  rewrite (run_eat _ _ _ _ _ TagOpen) by reflexivity. rewrite (run_eat _ _ _ _ _ MarkupDecl) by reflexivity.
  rewrite (run_eatn _ _ _ _ _ [] 1 CommentStart) by reflexivity.
  match goal with |- ([] ++ run sc 1 last CommentStart (45 :: ?X))%list = _ => change ([] ++ run sc 1 last CommentStart (45 :: X))%list with (run sc 0 last CommentStart X) end.
  destruct T as [|c T].
  - cbn [app map]. rewrite (run_eat _ _ _ _ _ CommentStartDash) by reflexivity.
    rewrite (run_eat _ _ _ _ _ (CommentEnd [])) by reflexivity. rewrite (run_eatn _ _ _ _ _ [TComment []] 0 Data) by reflexivity. reflexivity.
  - cbn [starts] in H1, H2. destruct (N.eq_dec c 45) as [->|Hc].
    + cbn [ok_comment] in Hok. change (45 =? 45) with true in Hok. cbn [negb andb] in Hok.
      destruct T as [|c' T]; [discriminate|]. cbn [ok_comment] in Hok. change (45 =? 45) with true in H2. cbn [andb] in H2.
      destruct (N.eqb_spec c' 45) as [->|Hc']; [discriminate|].
      cbn [app]. rewrite (run_eat _ _ _ _ _ CommentStartDash) by reflexivity.
      rewrite (run_again _ _ _ _ _ [] (Comment [45])).
      * apply (run_comment_data sc last (c' :: T) (Comment [45]) [45] false); [constructor|]. cbn [ok_comment]. replace (c' =? 45) with false by lia. exact Hok.
      * cbn [step]. replace (c' =? 45) with false by lia. replace (c' =? 62) with false by (rewrite andb_true_r in H2; lia). reflexivity.
    + cbn [app]. rewrite (run_again _ _ _ _ _ [] (Comment [])).
      * apply (run_comment_data sc last (c :: T) (Comment []) [] false); [constructor|exact Hok].
      * cbn [step]. replace (c =? 45) with false by lia. replace (c =? 62) with false by (rewrite andb_true_r in H1; lia). reflexivity.
Qed.

Lemma serialized_comment_reads sc last d rest :
  run sc O last Data (u "<!--" ++ serialize_comment_data d ++ u "-->" ++ rest)%list
  = TComment (map nul (serialize_comment_data d)) :: run sc O last Data rest.
Proof. destruct (serialize_comment_data_ok d) as (A & B & C). apply comment_reads; assumption. Qed.

(* what the serializer changes: only spaces are added *)
Lemma dash_sep_nospace s : forall p, filter (fun c => negb (c =? 32)) (dash_sep p s) = filter (fun c => negb (c =? 32)) s.
Proof.
  induction s as [|c t IH]; intros p; [reflexivity|]. cbn [dash_sep filter]. destruct (N.eqb_spec c 45) as [->|Hc].
  - destruct p; cbn; rewrite IH; reflexivity.
  - cbn [filter]. rewrite IH. reflexivity.
Qed.
Lemma serialize_comment_data_nospace d :
  filter (fun c => negb (c =? 32)) (serialize_comment_data d) = filter (fun c => negb (c =? 32)) d.
Proof.
  unfold serialize_comment_data, serialize_comment_data_opt. destruct d as [|c t]; [reflexivity|].
  rewrite dash_loop_enough. cbv zeta. rewrite <- (dash_sep_nospace (c :: t) false). generalize (dash_sep false (c :: t)). intros o.
  destruct (starts [62] o || starts [45;62] o);
  repeat match goal with |- context [if ends ?a ?b then _ else _] => destruct (ends a b) end;
  rewrite ?filter_app; cbn [filter N.eqb Pos.eqb negb app]; rewrite ?filter_app; cbn [filter N.eqb Pos.eqb negb app]; rewrite ?app_nil_r; reflexivity.
Qed.

Lemma serialize_comment_data_id d :
  contains [45;45] d = false -> starts [62] d = false -> starts [45;62] d = false -> ends [45] d = false ->
  serialize_comment_data d = d.
Proof.
  intros H1 H2 H3 H4. unfold serialize_comment_data, serialize_comment_data_opt. destruct d as [|c t]; [reflexivity|].
  rewrite dash_loop_enough. rewrite contains_dd in H1. apply Bool.negb_false_iff in H1. rewrite nodd_dash_sep by exact H1.
  cbv zeta. rewrite H2, H3. cbn [orb].
  assert (E : ends (u "<!-") (c :: t) = false).
  { unfold ends in *. change (rev (u "<!-")) with [45; 33; 60]. destruct (rev (c :: t)) as [|x r] eqn:Er; [reflexivity|].
    change (rev [45]) with [45] in H4. cbn [starts] in *. destruct (45 =? x); [cbn in H4; discriminate H4|reflexivity]. }
  rewrite E, H4. reflexivity.
Qed.

(* ---------- processing instructions ---------- *)
Lemma run_bogus sc last T : forall d rest, ~ In 62 T ->
  run sc O last (BogusComment d) (T ++ 62 :: rest)%list = TComment (d ++ map nul T)%list :: run sc O last Data rest.
Proof.
  induction T as [|c T IH]; intros d rest H; cbn [app map].
  - rewrite app_nil_r. rewrite (run_eatn _ _ _ _ _ [TComment d] 0 Data) by reflexivity. reflexivity.
  - rewrite (run_eat _ _ _ _ _ (BogusComment (snoc d (nul c)))).
    + rewrite IH by (intros Hi; apply H; right; exact Hi). unfold snoc. rewrite <- app_assoc. reflexivity.
    + cbn [step]. replace (c =? 62) with false; [reflexivity|]. symmetry. apply N.eqb_neq. intros ->. apply H; left; reflexivity.
Qed.
Lemma serialize_pi_no_gt d : ~ In 62 (serialize_pi_data d).
Proof.
  unfold serialize_pi_data, replace_char. intros H. apply in_flat_map in H. destruct H as (x & _ & Hx).
  destruct (x =? 62) eqn:E; cbn in Hx; [intuition discriminate|]. apply N.eqb_neq in E. intuition.
Qed.
Lemma pi_reads sc last d rest :
  run sc O last Data (u "<?" ++ serialize_pi_data d ++ u "?>" ++ rest)%list
  = TComment (63 :: map nul (serialize_pi_data d) ++ [63])%list :: run sc O last Data rest.
Proof.
  change (u "<?") with [60; 63]. change (u "?>" ++ rest)%list with (63 :: 62 :: rest). cbn [app].
  rewrite (run_eat _ _ _ _ _ TagOpen) by reflexivity.
  rewrite (run_again _ _ _ _ _ [] (BogusComment [])) by reflexivity. cbn [app].
  replace (63 :: serialize_pi_data d ++ 63 :: 62 :: rest)%list with ((63 :: serialize_pi_data d ++ [63]) ++ 62 :: rest)%list
    by (cbn; rewrite <- app_assoc; reflexivity).
  rewrite run_bogus; [cbn [app map]; rewrite map_app; reflexivity|].
  intros [H|H]; [discriminate|]. apply in_app_or in H. destruct H as [H|[H|[]]]; [|discriminate]. exact (serialize_pi_no_gt d H).
Qed.

(* ---------- doctypes ---------- *)
Definition doctype_inner (d : doctype_data) : str := (* everything between "<!DOCTYPE" and ">" *)
  let s := skipn 9 (serialize_doctype d) in firstn (List.length s - 1) s.

(* Any doctype text without '>' is one token. *)
Definition dstate (s : state) : bool :=
  match s with
  | Doctype | BeforeDoctypeName | DoctypeName _ | AfterDoctypeName _ | AfterPubKw _ | BeforePubId _ | PubDQ _ _ | PubSQ _ _
  | AfterPubId _ | BetweenPubSys _ | AfterSysKw _ | BeforeSysId _ | SysDQ _ _ | SysSQ _ _ | AfterSysId _ | BogusDoctype _ _ => true
  | _ => false
  end.

Lemma dstate_gt s : dstate s = true -> exists a b c q, forall sc last rest, run sc O last s (62 :: rest) = TDoctype a b c q :: run sc O last Data rest.
Proof.
  intros H. destruct s; try discriminate H; do 4 eexists; intros; rewrite run_cons; cbn; reflexivity.
Qed.

Lemma kw_local kw c T rest : List.length kw = 6%nat -> ~ In 62 kw ->
  str_eqb (alow (firstn 6 (c :: T ++ 62 :: rest)%list)) kw = str_eqb (alow (firstn 6 (c :: T))) kw /\
  (str_eqb (alow (firstn 6 (c :: T))) kw = true -> (5 <= List.length T)%nat).
Proof.
  intros Hl Hn.
  destruct (Nat.le_gt_cases 5 (List.length T)) as [H5|H5].
  - split; [|auto]. change (c :: T ++ 62 :: rest)%list with ((c :: T) ++ 62 :: rest)%list. rewrite firstn_app.
    replace (6 - List.length (c :: T))%nat with O by (cbn [List.length]; lia). cbn [firstn]. rewrite app_nil_r. reflexivity.
  - assert (E : str_eqb (alow (firstn 6 (c :: T))) kw = false).
    { apply str_eqb_neq. intros E. apply (f_equal (@List.length N)) in E. rewrite alow_length, firstn_length in E. cbn [List.length] in E. lia. }
    rewrite E. split; [|discriminate]. apply str_eqb_neq. intros E'. apply Hn. rewrite <- E'.
    assert (Hin : In 62 (firstn 6 (c :: T ++ 62 :: rest)%list)).
    { change (firstn 6 (c :: T ++ 62 :: rest)%list) with (c :: firstn 5 (T ++ 62 :: rest)%list). right.
      rewrite firstn_app. apply in_or_app. right. destruct (5 - List.length T)%nat eqn:E5; [lia|]. left. reflexivity. }
    apply (in_map alow_c) in Hin. exact Hin.
Qed.

Lemma dstate_other s c T : dstate s = true -> c <> 62 -> exists n s', dstate s' = true /\ (n <= List.length T)%nat /\
  forall sc last rest, run sc O last s (c :: T ++ 62 :: rest)%list = run sc n last s' (T ++ 62 :: rest)%list.
Proof.
  intros H Hc. assert (E62 : (c =? 62) = false) by lia.
  pose proof (fun rest => kw_local (u "public") c T rest eq_refl ltac:(vm_compute; intuition discriminate)) as Hpub.
  pose proof (fun rest => kw_local (u "system") c T rest eq_refl ltac:(vm_compute; intuition discriminate)) as Hsys.
  assert (P1 := fun r => proj1 (Hpub r)). assert (P2 := proj2 (Hpub [])). assert (S1 := fun r => proj1 (Hsys r)). assert (S2 := proj2 (Hsys [])). clear Hpub Hsys.
  assert (Hst : exists n s', dstate s' = true /\ (n <= List.length T)%nat /\ forall last rest, step last s c (T ++ 62 :: rest)%list = Eat [] n s' \/
       (exists s1, step last s c (T ++ 62 :: rest)%list = Again [] s1 /\ step last s1 c (T ++ 62 :: rest)%list = Eat [] n s')).
  { destruct s; try discriminate H; cbn [step eat out]; rewrite ?E62;
    try (assert (HK : forall (b1 b2 : str -> bool) (x1 x2 : bool) (A B C : act), (forall r, b1 r = x1) -> (forall r, b2 r = x2) ->
         forall r, (if b1 r then A else if b2 r then B else C) = (if x1 then A else if x2 then B else C)) by (intros b1 b2 x1 x2 A B C G1 G2 r; rewrite G1, G2; reflexivity)).
    all: destruct (ws c) eqn:Ews.
    all: try (eexists O; eexists; split; [|split; [lia|intros; left; reflexivity]]; reflexivity).
    all: destruct (c =? 34) eqn:E34; try (eexists O; eexists; split; [|split; [lia|intros; left; reflexivity]]; reflexivity).
    all: destruct (c =? 39) eqn:E39; try (eexists O; eexists; split; [|split; [lia|intros; left; reflexivity]]; reflexivity).
    all: destruct (str_eqb (alow (firstn 6 (c :: T))) (u "public")) eqn:Ep;
         destruct (str_eqb (alow (firstn 6 (c :: T))) (u "system")) eqn:Es;
         try (eexists 5%nat; eexists; split; [|split; [auto|intros; left; rewrite P1, ?S1; reflexivity]]; reflexivity);
         try (eexists O; eexists; split; [|split; [lia|intros; right; eexists; split; [rewrite ?P1, ?S1; reflexivity|cbn [step]; rewrite ?E62, ?Ews, ?E34, ?E39; reflexivity]]]; reflexivity). }
  destruct Hst as (n & s' & A & B & C). exists n, s'. split; [exact A|]. split; [exact B|]. intros sc last rest.
  destruct (C last rest) as [E|(s1 & E1 & E2)].
  - rewrite (run_eatn _ _ _ _ _ _ _ _ E). reflexivity.
  - rewrite (run_again _ _ _ _ _ _ _ E1). cbn [app]. rewrite (run_eatn _ _ _ _ _ _ _ _ E2). reflexivity.
Qed.

Lemma run_doctype T : forall k s, dstate s = true -> ~ In 62 T -> (k <= List.length T)%nat ->
  exists a b c q, forall sc last rest, run sc k last s (T ++ 62 :: rest)%list = TDoctype a b c q :: run sc O last Data rest.
Proof.
  induction T as [|c T IH]; intros k s Hs Hn Hk.
  - cbn [List.length] in Hk. replace k with O by lia. cbn [app]. apply dstate_gt; exact Hs.
  - assert (Hn' : ~ In 62 T) by (intros Hi; apply Hn; right; exact Hi). destruct k as [|k]; cbn [app].
    + destruct (dstate_other s c T Hs) as (n & s' & Hs' & Hle & E).
      { intros ->. apply Hn; left; reflexivity. }
      destruct (IH n s' Hs' Hn' Hle) as (a & b & d & q & E'). exists a, b, d, q. intros. rewrite E. apply E'.
    + cbn [run]. apply IH; [exact Hs|exact Hn'|cbn [List.length] in Hk; lia].
Qed.

Lemma escape_attr_no v q d : q = 34 \/ q = 39 -> d = 60 \/ d = 62 \/ d = q -> ~ In d (escape_attr_value v q).
Proof. intros Hq Hd. rewrite escape_attr_value_flat by exact Hq. apply flat_map_no. intros c. apply esca_no; assumption. Qed.

Lemma safe_doctype_name_no_gt n : ~ In 62 (safe_doctype_name n).
Proof.
  unfold safe_doctype_name. destruct (tag_name_re n) eqn:E; [|intros []].
  apply tag_name_re_spec in E. destruct E as (c & m & E & _ & Hall). rewrite <- E in Hall. rewrite forallb_forall in Hall.
  intros Hin. destruct (drop_final_nl_cases n) as [[E' _]|E'].
  - rewrite <- E' in Hin. specialize (Hall _ Hin). discriminate.
  - rewrite E' in Hin. apply in_app_or in Hin. destruct Hin as [Hin|[Hin|[]]]; [specialize (Hall _ Hin); discriminate|discriminate].
Qed.

Lemma serialize_doctype_split d : exists T, serialize_doctype d = (u "<!DOCTYPE" ++ T ++ [62])%list /\ ~ In 62 T.
Proof.
  unfold serialize_doctype.
  destruct (match d with DNone => (u "html", None, None) | DStr s => (s, None, None)
            | DObj d0 => (match dt_name d0 with Some n => n | None => [] end, dt_public d0, dt_system d0) end) as [[n p] s].
  eexists ((match safe_doctype_name n with [] => [] | _ => 32 :: safe_doctype_name n end) ++ _)%list. split; [rewrite <- app_assoc; reflexivity|].
  assert (Hn : ~ In 62 (match safe_doctype_name n with [] => [] | _ => 32 :: safe_doctype_name n end)).
  { pose proof (safe_doctype_name_no_gt n) as Hg. destruct (safe_doctype_name n) as [|a b] eqn:E; [intros []|]. intros [H|H]; [discriminate|exact (Hg H)]. }
  assert (Hq : forall v, ~ In 62 (escape_attr_value v 34)) by (intros; apply escape_attr_no; auto).
  intros Hin. apply in_app_or in Hin. destruct Hin as [Hin|Hin]; [exact (Hn Hin)|].
  destruct p as [p|].
  - repeat (apply in_app_or in Hin; destruct Hin as [Hin|Hin]); try (vm_compute in Hin; intuition discriminate); try (exact (Hq _ Hin)).
    destruct s as [s|]; [|destruct Hin].
    repeat (apply in_app_or in Hin; destruct Hin as [Hin|Hin]); try (vm_compute in Hin; intuition discriminate); try (exact (Hq _ Hin)).
  - destruct s as [s|]; [|destruct Hin].
    repeat (apply in_app_or in Hin; destruct Hin as [Hin|Hin]); try (vm_compute in Hin; intuition discriminate); try (exact (Hq _ Hin)).
Qed.

Lemma doctype_reads d :
  exists a b c q, forall sc last rest, run sc O last Data (serialize_doctype d ++ rest)%list = TDoctype a b c q :: run sc O last Data rest.
Proof.
  destruct (serialize_doctype_split d) as (T & E & HT). destruct (run_doctype T O Doctype eq_refl HT ltac:(lia)) as (a & b & c & q & Hr).
  exists a, b, c, q. intros sc last rest. rewrite E. rewrite <- Hr.
  replace ((u "<!DOCTYPE" ++ T ++ [62]) ++ rest)%list with (60 :: 33 :: u "DOCTYPE" ++ T ++ 62 :: rest)%list
    by (change (u "<!DOCTYPE") with (60 :: 33 :: u "DOCTYPE"); cbn [app]; rewrite <- !app_assoc; reflexivity).
  rewrite (run_eat _ _ _ _ _ TagOpen) by reflexivity. rewrite (run_eat _ _ _ _ _ MarkupDecl) by reflexivity.
  change (u "DOCTYPE" ++ T ++ 62 :: rest)%list with (68 :: u "OCTYPE" ++ T ++ 62 :: rest)%list.
  rewrite (run_eatn _ _ _ _ _ [] 6 Doctype) by reflexivity. cbn [app].
  change 6%nat with (List.length (u "OCTYPE")). rewrite run_skip. reflexivity.
Qed.

(* the common case read back exactly: a lower-case name and identifiers that need no escaping *)
Lemma run_doctype_name sc last n s rest : forallb tag_name_char s = true ->
  run sc O last (DoctypeName n) (s ++ rest)%list = run sc O last (DoctypeName (n ++ canon s)%list) rest.
Proof.
  revert n; induction s as [|c s IH]; intros n; cbn [forallb app canon map].
  - intros _. rewrite app_nil_r. reflexivity.
  - intros H; apply andb_prop in H; destruct H as [Hc Hs]. destruct (tag_name_char_spec _ Hc) as (H1 & _ & H3 & H4).
    rewrite (run_eat _ _ _ _ _ (DoctypeName (snoc n (nul (alow_c c))))).
    + rewrite IH by exact Hs. unfold snoc. rewrite <- app_assoc. reflexivity.
    + cbn [step]. rewrite H1, H4. reflexivity.
Qed.
Lemma run_pub sc last d v0 T rest : ~ In 62 T -> ~ In 34 T ->
  run sc O last (PubDQ d v0) (T ++ 34 :: rest)%list = run sc O last (AfterPubId (Dt (d_name d) (Some (v0 ++ map nul T)%list) (d_sys d))) rest.
Proof.
  revert v0; induction T as [|c T IH]; intros v0 H1 H2; cbn [app map].
  - rewrite app_nil_r. apply run_eat. reflexivity.
  - rewrite (run_eat _ _ _ _ _ (PubDQ d (snoc v0 (nul c)))).
    + rewrite IH by (intros Hi; first [apply H1; right; exact Hi|apply H2; right; exact Hi]). unfold snoc. rewrite <- app_assoc. reflexivity.
    + cbn [step]. replace (c =? 34) with false by (symmetry; apply N.eqb_neq; intros ->; apply H2; left; reflexivity).
      replace (c =? 62) with false by (symmetry; apply N.eqb_neq; intros ->; apply H1; left; reflexivity). reflexivity.
Qed.
Lemma run_sys sc last d v0 T rest : ~ In 62 T -> ~ In 34 T ->
  run sc O last (SysDQ d v0) (T ++ 34 :: rest)%list = run sc O last (AfterSysId (Dt (d_name d) (d_pub d) (Some (v0 ++ map nul T)%list))) rest.
Proof.
  revert v0; induction T as [|c T IH]; intros v0 H1 H2; cbn [app map].
  - rewrite app_nil_r. apply run_eat. reflexivity.
  - rewrite (run_eat _ _ _ _ _ (SysDQ d (snoc v0 (nul c)))).
    + rewrite IH by (intros Hi; first [apply H1; right; exact Hi|apply H2; right; exact Hi]). unfold snoc. rewrite <- app_assoc. reflexivity.
    + cbn [step]. replace (c =? 34) with false by (symmetry; apply N.eqb_neq; intros ->; apply H2; left; reflexivity).
      replace (c =? 62) with false by (symmetry; apply N.eqb_neq; intros ->; apply H1; left; reflexivity). reflexivity.
Qed.

(* A doctype with a valid name keeps name and identifiers (identifiers as escaped text, NUL replaced). *)
Lemma doctype_exact n p s sc last rest : tag_name_re n = true ->
  run sc O last Data (serialize_doctype (DObj (Doctype_ (Some n) p s)) ++ rest)%list
  = TDoctype (Some (canon_name n)) (option_map (fun v => map nul (escape_attr_value v 34)) p)
      (option_map (fun v => map nul (escape_attr_value v 34)) s) false :: run sc O last Data rest.
Proof.
  intros Hn. unfold serialize_doctype. cbn [dt_name dt_public dt_system]. unfold safe_doctype_name. rewrite Hn.
  set (tl := (match p with Some p0 => _ | None => _ end)).
  destruct (tag_name_re_spec _ Hn) as (c0 & m0 & En & Ha0 & Hall).
  assert (Hne : n <> []) by (intros ->; discriminate).
  replace (match n with [] => [] | _ :: _ => 32 :: n end) with (32 :: n) by (destruct n; [congruence|reflexivity]).
  change (u "<!DOCTYPE") with (60 :: 33 :: 68 :: u "OCTYPE"). cbn [app]. rewrite <- !app_assoc. cbn [app]. rewrite <- !app_assoc.
  rewrite (run_eat _ _ _ _ _ TagOpen) by reflexivity. rewrite (run_eat _ _ _ _ _ MarkupDecl) by reflexivity.
  rewrite (run_eatn _ _ _ _ _ [] 6 Doctype) by reflexivity. cbn [app].
  change 6%nat with (List.length (u "OCTYPE")). rewrite run_skip.
  rewrite (run_eat _ _ _ _ _ BeforeDoctypeName) by reflexivity.
  (* the name, then a state that is AfterDoctypeName-like *)
  set (dd := Dt (Some (canon_name n)) None None).
  assert (Hname : exists st, (st = DoctypeName (canon_name n) \/ st = AfterDoctypeName dd) /\
     forall r, run sc O last BeforeDoctypeName (n ++ r)%list = run sc O last st r).
  { assert (H1 : forall r, run sc O last BeforeDoctypeName ((c0 :: m0) ++ r)%list = run sc O last (DoctypeName (canon_name n)) r).
    { intros r. cbn [app]. cbn [forallb] in Hall. apply andb_prop in Hall. destruct Hall as [Hc Hm].
      destruct (tag_name_char_spec _ Hc) as (W1 & _ & _ & W4).
      rewrite (run_eat _ _ _ _ _ (DoctypeName [nul (alow_c c0)])); [|cbn [step]; rewrite W1, W4; reflexivity].
      rewrite run_doctype_name by exact Hm. unfold canon_name. fold (drop_final_nl n). rewrite En. reflexivity. }
    destruct (drop_final_nl_cases n) as [[E' _]|E'].
    - exists (DoctypeName (canon_name n)). split; [auto|]. intros r. rewrite <- H1, <- En, E'. reflexivity.
    - exists (AfterDoctypeName dd). split; [auto|]. intros r. rewrite E' at 1. rewrite En, <- app_assoc, H1. cbn [app]. apply run_eat. reflexivity. }
  destruct Hname as (st & Hst & Hrun). rewrite Hrun.
  assert (Hsp : forall r, run sc O last st (32 :: r) = run sc O last (AfterDoctypeName dd) r).
  { intros r. destruct Hst as [->| ->]; apply run_eat; reflexivity. }
  assert (Hgt : forall r, run sc O last st (62 :: r) = TDoctype (Some (canon_name n)) None None false :: run sc O last Data r).
  { intros r. destruct Hst as [->| ->].
    - rewrite (run_eatn _ _ _ _ _ [TDoctype (Some (canon_name n)) None None false] 0 Data) by reflexivity. reflexivity.
    - rewrite (run_eatn _ _ _ _ _ [TDoctype (Some (canon_name n)) None None false] 0 Data) by reflexivity. reflexivity. }
  assert (G62 : forall v, ~ In 62 (escape_attr_value v 34)) by (intros; apply escape_attr_no; auto).
  assert (G34 : forall v, ~ In 34 (escape_attr_value v 34)) by (intros; apply escape_attr_no; auto).
  unfold tl. destruct p as [p|]; [|destruct s as [s|]].
  - change (u " PUBLIC """) with (32 :: 80 :: u "UBLIC" ++ [32; 34])%list. cbn [app]. rewrite <- !app_assoc. rewrite Hsp.
    rewrite (run_eatn _ _ _ _ _ [] 5 (AfterPubKw dd)) by reflexivity. cbn [app].
    change 5%nat with (List.length (u "UBLIC")). rewrite run_skip.
    cbn [app]. rewrite (run_eat _ _ _ _ _ (BeforePubId dd)) by reflexivity. rewrite (run_eat _ _ _ _ _ (PubDQ dd [])) by reflexivity.
    rewrite run_pub by auto. destruct s as [s|].
    + change (u " """) with [32; 34]. rewrite <- !app_assoc. cbn [app].
      rewrite (run_eat _ _ _ _ _ (BetweenPubSys (Dt (Some (canon_name n)) (Some (map nul (escape_attr_value p 34))) None))) by reflexivity.
      rewrite (run_eat _ _ _ _ _ (SysDQ (Dt (Some (canon_name n)) (Some (map nul (escape_attr_value p 34))) None) [])) by reflexivity.
      rewrite run_sys by auto. cbn [d_name d_pub].
      rewrite (run_eatn _ _ _ _ _ [TDoctype (Some (canon_name n)) (Some (map nul (escape_attr_value p 34))) (Some (map nul (escape_attr_value s 34))) false] 0 Data) by reflexivity.
      reflexivity.
    + cbn [app d_name d_sys dd].
      rewrite (run_eatn _ _ _ _ _ [TDoctype (Some (canon_name n)) (Some (map nul (escape_attr_value p 34))) None false] 0 Data) by reflexivity. reflexivity.
  - change (u " SYSTEM """) with (32 :: 83 :: u "YSTEM" ++ [32; 34])%list. cbn [app]. rewrite <- !app_assoc. rewrite Hsp.
    rewrite (run_eatn _ _ _ _ _ [] 5 (AfterSysKw dd)) by reflexivity. cbn [app].
    change 5%nat with (List.length (u "YSTEM")). rewrite run_skip.
    cbn [app]. rewrite (run_eat _ _ _ _ _ (BeforeSysId dd)) by reflexivity. rewrite (run_eat _ _ _ _ _ (SysDQ dd [])) by reflexivity.
    rewrite run_sys by auto. cbn [app d_name d_pub dd].
    rewrite (run_eatn _ _ _ _ _ [TDoctype (Some (canon_name n)) None (Some (map nul (escape_attr_value s 34))) false] 0 Data) by reflexivity. reflexivity.
  - cbn [app]. rewrite Hgt. reflexivity.
Qed.
