(* Proofs: escaping of text and attribute values, comments, PIs, doctypes, start/end tags (SerializerModel.v)
   read back by the tokenizer specification (HtmlTokSpec.v). *)
From Coq Require Import Wf_nat Lia ZifyBool ZifyN ZifyNat.
From Verif Require Import Str StrFacts EntityTable HtmlCharRefSpec HtmlTokSpec TokFacts SerializerModel RawTextSpec SerTreeSpec.
Open Scope N_scope.

(* ---------- escaping as a character map ---------- *)
Definition esc1 (c : N) : str :=
  if c =? 38 then u "&amp;" else if c =? 60 then u "&lt;" else if c =? 62 then u "&gt;" else [c].
Definition esca (q c : N) : str :=
  if c =? q then (if q =? 34 then u "&quot;" else u "&#39;") else esc1 c.

Lemma flat_map_flat_map {A B C} (f : A -> list B) (g : B -> list C) l :
  flat_map g (flat_map f l) = flat_map (fun x => flat_map g (f x)) l.
Proof. induction l as [|x l IH]; [reflexivity|]. cbn [flat_map]. rewrite flat_map_app, IH. reflexivity. Qed.

Lemma escape_html_chars_flat t : escape_html_chars t = flat_map esc1 t.
Proof.
  unfold escape_html_chars, replace_char. rewrite !flat_map_flat_map. apply flat_map_ext. intros c. unfold esc1.
  destruct (N.eqb_spec c 38) as [->|]; [reflexivity|]. cbn [flat_map app].
  destruct (N.eqb_spec c 60) as [->|]; [reflexivity|]. cbn [flat_map app]. rewrite !app_nil_r. reflexivity.
Qed.

Lemma flat_map_id (f : N -> str) t : (forall c, In c t -> f c = [c]) -> flat_map f t = t.
Proof.
  induction t as [|c t IH]; intros H; [reflexivity|]. cbn [flat_map]. rewrite H by (left; reflexivity).
  cbn [app]. f_equal. apply IH. intros; apply H; right; assumption.
Qed.

Lemma escape_text_flat t : escape_text t = flat_map esc1 t.
Proof.
  unfold escape_text. destruct t as [|c t]; [reflexivity|]. set (s := c :: t).
  destruct (negb (mem 38 s) && negb (mem 60 s) && negb (mem 62 s)) eqn:E; [|apply escape_html_chars_flat].
  symmetry. apply flat_map_id. intros x Hx. apply andb_prop in E; destruct E as [E E3]; apply andb_prop in E; destruct E as [E1 E2].
  apply Bool.negb_true_iff in E1, E2, E3. apply mem_false_In in E1, E2, E3. unfold esc1.
  destruct (N.eqb_spec x 38) as [->|]; [tauto|]. destruct (N.eqb_spec x 60) as [->|]; [tauto|].
  destruct (N.eqb_spec x 62) as [->|]; [tauto|]. reflexivity.
Qed.

Lemma escape_attr_value_flat v q : q = 34 \/ q = 39 -> escape_attr_value v q = flat_map (esca q) v.
Proof.
  intros Hq. unfold escape_attr_value.
  destruct (negb (mem 38 v) && negb (mem 60 v) && negb (mem 62 v) && negb (mem q v)) eqn:E.
  - symmetry. apply flat_map_id. intros x Hx.
    repeat (apply andb_prop in E; let E' := fresh in destruct E as [E E']; apply Bool.negb_true_iff, mem_false_In in E').
    apply Bool.negb_true_iff, mem_false_In in E. unfold esca, esc1.
    destruct (N.eqb_spec x q) as [->|]; [tauto|].
    destruct (N.eqb_spec x 38) as [->|]; [tauto|]. destruct (N.eqb_spec x 60) as [->|]; [tauto|].
    destruct (N.eqb_spec x 62) as [->|]; [tauto|]. reflexivity.
  - rewrite escape_html_chars_flat. destruct Hq as [->| ->].
    + change (34 =? 34) with true. cbv iota. unfold replace_char. rewrite flat_map_flat_map. apply flat_map_ext. intros c. unfold esca, esc1.
      destruct (N.eqb_spec c 34) as [->|]; [reflexivity|].
      destruct (N.eqb_spec c 38) as [->|]; [reflexivity|]. destruct (N.eqb_spec c 60) as [->|]; [reflexivity|].
      destruct (N.eqb_spec c 62) as [->|]; [reflexivity|]. cbn [flat_map app].
      destruct (N.eqb_spec c 34) as [->|]; [congruence|reflexivity].
    + change (39 =? 34) with false. cbv iota. unfold replace_char. rewrite (flat_map_flat_map esc1). apply flat_map_ext. intros c. unfold esca, esc1.
      destruct (N.eqb_spec c 39) as [->|]; [reflexivity|].
      destruct (N.eqb_spec c 38) as [->|]; [reflexivity|]. destruct (N.eqb_spec c 60) as [->|]; [reflexivity|].
      destruct (N.eqb_spec c 62) as [->|]; [reflexivity|]. cbn [flat_map app].
      destruct (N.eqb_spec c 39) as [->|]; [congruence|reflexivity].
Qed.

Lemma esc1_no c d : d = 60 \/ d = 62 -> ~ In d (esc1 c).
Proof.
  intros Hd. unfold esc1. destruct (N.eqb_spec c 38); [vm_compute; intuition (subst; discriminate)|].
  destruct (N.eqb_spec c 60); [vm_compute; intuition (subst; discriminate)|].
  destruct (N.eqb_spec c 62); [vm_compute; intuition (subst; discriminate)|].
  intros [H|[]]. subst. destruct Hd; congruence.
Qed.
Lemma esca_no q c d : q = 34 \/ q = 39 -> d = 60 \/ d = 62 \/ d = q -> ~ In d (esca q c).
Proof.
  intros Hq Hd. unfold esca. destruct (N.eqb_spec c q).
  - destruct Hq as [->| ->]; vm_compute; intuition (subst; discriminate).
  - unfold esc1. destruct (N.eqb_spec c 38); [vm_compute; intuition (subst; discriminate)|].
    destruct (N.eqb_spec c 60); [vm_compute; intuition (subst; discriminate)|].
    destruct (N.eqb_spec c 62); [vm_compute; intuition (subst; discriminate)|].
    intros [H|[]]. subst. intuition congruence.
Qed.
Lemma flat_map_no (f : N -> str) t d : (forall c, ~ In d (f c)) -> ~ In d (flat_map f t).
Proof. intros H Hin. apply in_flat_map in Hin. destruct Hin as (x & _ & Hx). exact (H x Hx). Qed.

(* ---------- text in the data and RCDATA states ---------- *)
Lemma run_data_esc sc last t rest :
  run sc O last Data (flat_map esc1 t ++ rest)%list = (chars t ++ run sc O last Data rest)%list.
Proof.
  induction t as [|c t IH]; [reflexivity|]. cbn [flat_map chars map]. fold (chars t). rewrite <- app_assoc.
  unfold esc1 at 1. destruct (N.eqb_spec c 38) as [->|H38].
  - change (u "&amp;") with (38 :: u "amp;"). cbn [app].
    rewrite (run_eatn _ _ _ _ _ [TChar 38] 4 Data); [|cbn [step]; change (38 =? 38) with true; cbv iota; rewrite charref_amp; reflexivity].
    cbn [app]. f_equal. change 4%nat with (List.length (u "amp;")). rewrite run_skip. exact IH.
  - destruct (N.eqb_spec c 60) as [->|H60].
    + change (u "&lt;") with (38 :: u "lt;"). cbn [app].
      rewrite (run_eatn _ _ _ _ _ [TChar 60] 3 Data); [|cbn [step]; change (38 =? 38) with true; cbv iota; rewrite charref_lt; reflexivity].
      cbn [app]. f_equal. change 3%nat with (List.length (u "lt;")). rewrite run_skip. exact IH.
    + destruct (N.eqb_spec c 62) as [->|H62].
      * change (u "&gt;") with (38 :: u "gt;"). cbn [app].
        rewrite (run_eatn _ _ _ _ _ [TChar 62] 3 Data); [|cbn [step]; change (38 =? 38) with true; cbv iota; rewrite charref_gt; reflexivity].
        cbn [app]. f_equal. change 3%nat with (List.length (u "gt;")). rewrite run_skip. exact IH.
      * cbn [app]. rewrite (run_out _ _ _ _ _ c Data); [f_equal; exact IH|].
        cbn [step]. replace (c =? 38) with false by lia. replace (c =? 60) with false by lia. reflexivity.
Qed.

Lemma run_rcdata_esc sc last t rest :
  run sc O last Rcdata (flat_map esc1 t ++ rest)%list = (chars (map nul t) ++ run sc O last Rcdata rest)%list.
Proof.
  induction t as [|c t IH]; [reflexivity|]. cbn [flat_map chars map]. fold (chars (map nul t)). rewrite <- app_assoc.
  unfold esc1 at 1. destruct (N.eqb_spec c 38) as [->|H38].
  - change (u "&amp;") with (38 :: u "amp;"). cbn [app].
    rewrite (run_eatn _ _ _ _ _ [TChar 38] 4 Rcdata); [|cbn [step]; change (38 =? 38) with true; cbv iota; rewrite charref_amp; reflexivity].
    cbn [app]. f_equal. change 4%nat with (List.length (u "amp;")). rewrite run_skip. exact IH.
  - destruct (N.eqb_spec c 60) as [->|H60].
    + change (u "&lt;") with (38 :: u "lt;"). cbn [app].
      rewrite (run_eatn _ _ _ _ _ [TChar 60] 3 Rcdata); [|cbn [step]; change (38 =? 38) with true; cbv iota; rewrite charref_lt; reflexivity].
      cbn [app]. f_equal. change 3%nat with (List.length (u "lt;")). rewrite run_skip. exact IH.
    + destruct (N.eqb_spec c 62) as [->|H62].
      * change (u "&gt;") with (38 :: u "gt;"). cbn [app].
        rewrite (run_eatn _ _ _ _ _ [TChar 62] 3 Rcdata); [|cbn [step]; change (38 =? 38) with true; cbv iota; rewrite charref_gt; reflexivity].
        cbn [app]. f_equal. change 3%nat with (List.length (u "gt;")). rewrite run_skip. exact IH.
      * cbn [app]. rewrite (run_out _ _ _ _ _ (nul c) Rcdata); [f_equal; exact IH|].
        cbn [step]. replace (c =? 38) with false by lia. replace (c =? 60) with false by lia. reflexivity.
Qed.

Lemma newlines_flat_map (f : N -> str) t :
  (forall c, (c = 10 \/ c = 13) -> f c = [c]) -> (forall c, c <> 10 -> c <> 13 -> ~ In 13 (f c) /\ exists x y, f c = x :: y /\ x <> 10) ->
  newlines (flat_map f t) = flat_map f (newlines t).
Proof.
  intros H1 H2. remember (List.length t) as n eqn:En. revert t En.
  induction n as [n IH] using lt_wf_ind. intros [|c t] En; [reflexivity|]. cbn [List.length] in En.
  destruct (N.eq_dec c 13) as [->|Hc].
  - cbn [flat_map]. rewrite H1 by auto. cbn [app newlines].
    destruct t as [|d t'].
    + cbn. rewrite H1 by auto. reflexivity.
    + destruct (N.eq_dec d 10) as [->|Hd].
      * cbn [flat_map]. rewrite (H1 10) by auto. cbn [app]. rewrite (IH (List.length t')) by (cbn [List.length] in *; lia).
        reflexivity.
      * assert (E1 : forall X, match flat_map f (d :: t') with 10 :: t'0 => newlines t'0 | _ => X end = X).
        { intros X. cbn [flat_map]. destruct (N.eq_dec d 13) as [->|Hd13].
          - rewrite H1 by auto. reflexivity.
          - destruct (H2 d Hd Hd13) as (_ & x & y & Ef & Hx). rewrite Ef. cbn [app].
            destruct x as [|p]; [reflexivity|]. do 4 (destruct p; try reflexivity). congruence. }
        rewrite E1. rewrite (IH (List.length (d :: t'))) by (cbn [List.length] in *; lia).
        assert (E0 : forall X, match d with 10 => newlines t' | _ => X end = X).
        { intros X. destruct d as [|p]; [reflexivity|]. do 4 (destruct p; try reflexivity). congruence. }
        cbn [flat_map]. rewrite (H1 10) by auto. rewrite E0. reflexivity.
  - rewrite newlines_cons_other by exact Hc. cbn [flat_map]. rewrite newlines_app_no_cr.
    + f_equal. apply (IH (List.length t)); lia.
    + destruct (N.eq_dec c 10) as [->|Hc10]; [rewrite H1 by auto; intros [H|[]]; discriminate|].
      apply H2; assumption.
Qed.

Lemma newlines_esc1 t : newlines (flat_map esc1 t) = flat_map esc1 (newlines t).
Proof.
  apply newlines_flat_map.
  - intros c [->| ->]; reflexivity.
  - intros c H1 H2. unfold esc1.
    destruct (N.eqb_spec c 38); [split; [vm_compute; intuition discriminate|eexists; eexists; split; [reflexivity|discriminate]]|].
    destruct (N.eqb_spec c 60); [split; [vm_compute; intuition discriminate|eexists; eexists; split; [reflexivity|discriminate]]|].
    destruct (N.eqb_spec c 62); [split; [vm_compute; intuition discriminate|eexists; eexists; split; [reflexivity|discriminate]]|].
    split; [intros [H|[]]; congruence|]. exists c, []; auto.
Qed.

Lemma tokenize_escaped_text sc t : tokenize sc (escape_text t) = chars (newlines t).
Proof.
  unfold tokenize. rewrite escape_text_flat, newlines_esc1.
  rewrite <- (app_nil_r (flat_map _ _)), run_data_esc. cbn [run eof]. apply app_nil_r.
Qed.

(* ---------- quoted attribute values ---------- *)
Lemma run_attr_dq sc last tg n v0 v rest :
  run sc O last (AttrValDQ tg n v0) (flat_map (esca 34) v ++ 34 :: rest)%list
  = run sc O last (AfterAttrValQuoted (add_attr tg n (v0 ++ map nul v)%list)) rest.
Proof.
  revert v0; induction v as [|c v IH]; intros v0.
  - cbn [flat_map app map]. rewrite app_nil_r. apply run_eat. reflexivity.
  - cbn [flat_map map]. rewrite <- app_assoc. unfold esca at 1.
    assert (Hskip : forall (s : str) d k, s = 38 :: k -> charref true (k ++ flat_map (esca 34) v ++ 34 :: rest)%list = Some ([d], List.length k) -> nul d = d ->
       run sc O last (AttrValDQ tg n v0) (s ++ flat_map (esca 34) v ++ 34 :: rest)%list
       = run sc O last (AfterAttrValQuoted (add_attr tg n (v0 ++ nul d :: map nul v)%list)) rest).
    { intros s d k -> Hr Hd. cbn [app].
      rewrite (run_eatn _ _ _ _ _ [] (List.length k) (AttrValDQ tg n (v0 ++ [d])%list)).
      - cbn [app]. rewrite run_skip, IH, <- app_assoc, Hd. reflexivity.
      - cbn [step]. change (38 =? 34) with false. change (38 =? 38) with true. cbv iota. rewrite Hr. reflexivity. }
    destruct (N.eqb_spec c 34) as [->|Hq].
    + change (34 =? 34) with true. cbv iota. apply (Hskip _ 34 (u "quot;")); [reflexivity|apply charref_quot|reflexivity].
    + unfold esc1. destruct (N.eqb_spec c 38) as [->|H38]; [apply (Hskip _ 38 (u "amp;")); [reflexivity|apply charref_amp|reflexivity]|].
      destruct (N.eqb_spec c 60) as [->|H60]; [apply (Hskip _ 60 (u "lt;")); [reflexivity|apply charref_lt|reflexivity]|].
      destruct (N.eqb_spec c 62) as [->|H62]; [apply (Hskip _ 62 (u "gt;")); [reflexivity|apply charref_gt|reflexivity]|].
      cbn [app]. rewrite (run_eat _ _ _ _ _ (AttrValDQ tg n (snoc v0 (nul c)))).
      * rewrite IH. unfold snoc. rewrite <- app_assoc. reflexivity.
      * cbn [step]. replace (c =? 34) with false by lia. replace (c =? 38) with false by lia. reflexivity.
Qed.

Lemma run_attr_sq sc last tg n v0 v rest :
  run sc O last (AttrValSQ tg n v0) (flat_map (esca 39) v ++ 39 :: rest)%list
  = run sc O last (AfterAttrValQuoted (add_attr tg n (v0 ++ map nul v)%list)) rest.
Proof.
  revert v0; induction v as [|c v IH]; intros v0.
  - cbn [flat_map app map]. rewrite app_nil_r. apply run_eat. reflexivity.
  - cbn [flat_map map]. rewrite <- app_assoc. unfold esca at 1.
    assert (Hskip : forall (s : str) d k, s = 38 :: k -> charref true (k ++ flat_map (esca 39) v ++ 39 :: rest)%list = Some ([d], List.length k) -> nul d = d ->
       run sc O last (AttrValSQ tg n v0) (s ++ flat_map (esca 39) v ++ 39 :: rest)%list
       = run sc O last (AfterAttrValQuoted (add_attr tg n (v0 ++ nul d :: map nul v)%list)) rest).
    { intros s d k -> Hr Hd. cbn [app].
      rewrite (run_eatn _ _ _ _ _ [] (List.length k) (AttrValSQ tg n (v0 ++ [d])%list)).
      - cbn [app]. rewrite run_skip, IH, <- app_assoc, Hd. reflexivity.
      - cbn [step]. change (38 =? 39) with false. change (38 =? 38) with true. cbv iota. rewrite Hr. reflexivity. }
    destruct (N.eqb_spec c 39) as [->|Hq].
    + change (39 =? 34) with false. cbv iota. apply (Hskip _ 39 (u "#39;")); [reflexivity|apply charref_39|reflexivity].
    + unfold esc1. destruct (N.eqb_spec c 38) as [->|H38]; [apply (Hskip _ 38 (u "amp;")); [reflexivity|apply charref_amp|reflexivity]|].
      destruct (N.eqb_spec c 60) as [->|H60]; [apply (Hskip _ 60 (u "lt;")); [reflexivity|apply charref_lt|reflexivity]|].
      destruct (N.eqb_spec c 62) as [->|H62]; [apply (Hskip _ 62 (u "gt;")); [reflexivity|apply charref_gt|reflexivity]|].
      cbn [app]. rewrite (run_eat _ _ _ _ _ (AttrValSQ tg n (snoc v0 (nul c)))).
      * rewrite IH. unfold snoc. rewrite <- app_assoc. reflexivity.
      * cbn [step]. replace (c =? 39) with false by lia. replace (c =? 38) with false by lia. reflexivity.
Qed.

(* unquoted values: escaping of & and < only *)
Definition escu (c : N) : str := if c =? 38 then u "&amp;" else if c =? 60 then u "&lt;" else [c].
Lemma escu_flat v : replace_char 60 (u "&lt;") (replace_char 38 (u "&amp;") v) = flat_map escu v.
Proof.
  unfold replace_char. rewrite flat_map_flat_map. apply flat_map_ext. intros c. unfold escu.
  destruct (N.eqb_spec c 38) as [->|]; [reflexivity|]. cbn [flat_map app]. apply app_nil_r.
Qed.
Lemma run_attr_unq sc last tg n v0 v rest : existsb unquoted_invalid v = false ->
  run sc O last (AttrValUnq tg n v0) (flat_map escu v ++ rest)%list
  = run sc O last (AttrValUnq tg n (v0 ++ map nul v)%list) rest.
Proof.
  revert v0; induction v as [|c v IH]; intros v0.
  - cbn [flat_map app map]. rewrite app_nil_r. reflexivity.
  - cbn [existsb]. intros H; apply Bool.orb_false_iff in H; destruct H as [Hc Hv].
    cbn [flat_map map]. rewrite <- app_assoc. unfold escu at 1.
    assert (Hskip : forall (s : str) d k, s = 38 :: k -> charref true (k ++ flat_map escu v ++ rest)%list = Some ([d], List.length k) -> nul d = d ->
       run sc O last (AttrValUnq tg n v0) (s ++ flat_map escu v ++ rest)%list
       = run sc O last (AttrValUnq tg n (v0 ++ nul d :: map nul v)%list) rest).
    { intros s d k -> Hr Hd. cbn [app].
      rewrite (run_eatn _ _ _ _ _ [] (List.length k) (AttrValUnq tg n (v0 ++ [d])%list)).
      - cbn [app]. rewrite run_skip, IH, <- app_assoc, Hd by exact Hv. reflexivity.
      - cbn [step]. change (ws 38) with false. change (38 =? 38) with true. cbv iota. rewrite Hr. reflexivity. }
    destruct (N.eqb_spec c 38) as [->|H38]; [apply (Hskip _ 38 (u "amp;")); [reflexivity|apply charref_amp|reflexivity]|].
    destruct (N.eqb_spec c 60) as [->|H60]; [apply (Hskip _ 60 (u "lt;")); [reflexivity|apply charref_lt|reflexivity]|].
    cbn [app]. rewrite (run_eat _ _ _ _ _ (AttrValUnq tg n (snoc v0 (nul c)))).
    + rewrite IH by exact Hv. unfold snoc. rewrite <- app_assoc. reflexivity.
    + cbn [step]. unfold unquoted_invalid, mem in Hc. cbn [existsb] in Hc.
      replace (ws c) with false by (unfold ws; lia). replace (c =? 38) with false by lia. replace (c =? 62) with false by lia. reflexivity.
Qed.

(* ---------- names ---------- *)
Lemma drop_final_nl_cases s : (drop_final_nl s = s /\ forall t, s <> (t ++ [10])%list) \/ s = (drop_final_nl s ++ [10])%list.
Proof.
  unfold drop_final_nl. destruct (rev s) as [|c r] eqn:E.
  - left; split; [reflexivity|]. intros t ->. rewrite rev_app_distr in E. discriminate.
  - assert (Es : s = (rev r ++ [c])%list) by (rewrite <- (rev_involutive s), E; reflexivity).
    destruct (N.eq_dec c 10) as [->|Hc].
    + right. exact Es.
    + left. split.
      * destruct c as [|p]; [reflexivity|]. do 4 (destruct p; try reflexivity). congruence.
      * intros t Et. rewrite Et in E. rewrite rev_app_distr in E. cbn in E. injection E as E _. congruence.
Qed.

Lemma tag_name_char_spec c : tag_name_char c = true -> ws c = false /\ c <> 13 /\ (c =? 47) = false /\ (c =? 62) = false.
Proof. unfold tag_name_char, mem, ws. cbn [existsb]. lia. Qed.
Lemma attr_name_char_spec c : attr_name_char c = true ->
  ws c = false /\ c <> 13 /\ (c =? 47) = false /\ (c =? 62) = false /\ (c =? 61) = false.
Proof. unfold attr_name_char, mem, ws. cbn [existsb]. lia. Qed.

Lemma run_tagname sc last e n s rest : forallb tag_name_char s = true ->
  run sc O last (TagName e n) (s ++ rest)%list = run sc O last (TagName e (n ++ canon s)%list) rest.
Proof.
  revert n; induction s as [|c s IH]; intros n; cbn [forallb app canon map].
  - intros _. rewrite app_nil_r. reflexivity.
  - intros H; apply andb_prop in H; destruct H as [Hc Hs]. destruct (tag_name_char_spec _ Hc) as (H1 & _ & H3 & H4).
    rewrite (run_eat _ _ _ _ _ (TagName e (snoc n (nul (alow_c c))))).
    + rewrite IH by exact Hs. unfold snoc. rewrite <- app_assoc. reflexivity.
    + cbn [step]. rewrite H1, H3, H4. reflexivity.
Qed.

Lemma run_attrname sc last t n s rest : forallb attr_name_char s = true ->
  run sc O last (AttrName t n) (s ++ rest)%list = run sc O last (AttrName t (n ++ canon s)%list) rest.
Proof.
  revert n; induction s as [|c s IH]; intros n; cbn [forallb app canon map].
  - intros _. rewrite app_nil_r. reflexivity.
  - intros H; apply andb_prop in H; destruct H as [Hc Hs]. destruct (attr_name_char_spec _ Hc) as (H1 & _ & H3 & H4 & H5).
    rewrite (run_eat _ _ _ _ _ (AttrName t (snoc n (nul (alow_c c))))).
    + rewrite IH by exact Hs. unfold snoc. rewrite <- app_assoc. reflexivity.
    + cbn [step]. rewrite H1, H3, H4, H5. reflexivity.
Qed.

Lemma is_alpha_not c : is_alpha_ascii c = true -> (c =? 33) = false /\ (c =? 47) = false /\ tag_name_char c = true.
Proof. unfold is_alpha_ascii, is_upper_ascii, is_lower_ascii, tag_name_char, mem. cbn [existsb]. lia. Qed.

(* ---------- states in which a tag with all its attributes has been read ---------- *)
Inductive ready : state -> tag -> Prop :=
| ready_tagname e n : ready (TagName e n) (Tag e n [])
| ready_before t : ready (BeforeAttrName t) t
| ready_attrname t k : k <> [] -> ready (AttrName t k) (add_attr t k [])
| ready_afterattr t k : k <> [] -> ready (AfterAttrName t k) (add_attr t k [])
| ready_unq t k v : ready (AttrValUnq t k v) (add_attr t k v)
| ready_quoted t : ready (AfterAttrValQuoted t) t.

Inductive ready_key : state -> tag -> Prop :=
| rk_before t : ready_key (BeforeAttrName t) t
| rk_afterattr t k : k <> [] -> ready_key (AfterAttrName t k) (add_attr t k []).

Lemma ready_key_ready s t : ready_key s t -> ready s t.
Proof. intros []; constructor; assumption. Qed.

Lemma ready_ws sc last s t c rest : ready s t -> ws c = true ->
  exists s', ready_key s' t /\ run sc O last s (c :: rest) = run sc O last s' rest.
Proof.
  intros Hr Hw.
  assert (H47 : (c =? 47) = false) by (unfold ws in Hw; lia).
  assert (H38 : (c =? 38) = false) by (unfold ws in Hw; lia).
  destruct Hr as [e n|t|t k Hk|t k Hk|t k v|t].
  - exists (BeforeAttrName (Tag e n [])); split; [constructor|]. apply run_eat. cbn [step]. rewrite Hw. reflexivity.
  - exists (BeforeAttrName t); split; [constructor|]. apply run_eat. cbn [step]. rewrite Hw. reflexivity.
  - exists (AfterAttrName t k); split; [constructor; assumption|].
    rewrite (run_again _ _ _ _ _ [] (AfterAttrName t k)); [|cbn [step]; rewrite Hw; reflexivity]. cbn [app].
    apply run_eat. cbn [step]. rewrite Hw. reflexivity.
  - exists (AfterAttrName t k); split; [constructor; assumption|]. apply run_eat. cbn [step]. rewrite Hw. reflexivity.
  - exists (BeforeAttrName (add_attr t k v)); split; [constructor|]. apply run_eat. cbn [step]. rewrite Hw. reflexivity.
  - exists (BeforeAttrName t); split; [constructor|]. apply run_eat. cbn [step]. rewrite Hw. reflexivity.
Qed.

Definition emit_run (sc : bool) (last : str) (t : tag) (b : bool) (rest : str) : list token :=
  if t_end t then TEnd (t_name t) :: run sc O last Data rest
  else TStart (t_name t) (t_attrs t) b :: run sc O (t_name t) (switch sc (t_name t)) rest.

Lemma match_ne' {A} (l : str) (a b : A) : l <> [] -> match l with [] => a | _ :: _ => b end = b.
Proof. destruct l; [congruence|reflexivity]. Qed.

Lemma ready_gt sc last s t rest : ready s t -> run sc O last s (62 :: rest) = emit_run sc last t false rest.
Proof.
  intros Hr. unfold emit_run. destruct Hr as [e n|t|t k Hk|t k Hk|t k v|t].
  - rewrite (run_emit _ _ _ _ _ (Tag e n []) false) by reflexivity. reflexivity.
  - rewrite (run_again _ _ _ _ _ [] (AfterAttrName t [])) by reflexivity. cbn [app].
    rewrite (run_emit _ _ _ _ _ t false) by reflexivity. reflexivity.
  - rewrite (run_again _ _ _ _ _ [] (AfterAttrName t k)) by reflexivity. cbn [app].
    rewrite (run_emit _ _ _ _ _ (add_attr t k []) false); [reflexivity|].
    cbn [step]. change (ws 62) with false. change (62 =? 47) with false. change (62 =? 61) with false. cbn [andb]. change (62 =? 62) with true.
    cbv iota. rewrite match_ne' by exact Hk. reflexivity.
  - rewrite (run_emit _ _ _ _ _ (add_attr t k []) false); [reflexivity|].
    cbn [step]. change (ws 62) with false. change (62 =? 47) with false. change (62 =? 61) with false. cbn [andb]. change (62 =? 62) with true.
    cbv iota. rewrite match_ne' by exact Hk. reflexivity.
  - rewrite (run_emit _ _ _ _ _ (add_attr t k v) false) by reflexivity. reflexivity.
  - rewrite (run_emit _ _ _ _ _ t false) by reflexivity. reflexivity.
Qed.

Lemma ready_key_solidus sc last s t rest : ready_key s t -> run sc O last s (47 :: 62 :: rest) = emit_run sc last t true rest.
Proof.
  intros Hr. unfold emit_run. destruct Hr as [t|t k Hk].
  - rewrite (run_again _ _ _ _ _ [] (AfterAttrName t [])) by reflexivity. cbn [app].
    rewrite (run_eat _ _ _ _ _ (SelfClosing t)) by reflexivity.
    rewrite (run_emit _ _ _ _ _ t true) by reflexivity. reflexivity.
  - rewrite (run_eat _ _ _ _ _ (SelfClosing (add_attr t k []))).
    + rewrite (run_emit _ _ _ _ _ (add_attr t k []) true) by reflexivity. reflexivity.
    + cbn [step]. change (ws 47) with false. change (47 =? 47) with true. cbv iota. rewrite match_ne' by exact Hk. reflexivity.
Qed.

Lemma ready_key_name sc last s t m rest : ready_key s t -> m <> [] -> forallb attr_name_char m = true ->
  run sc O last s (m ++ rest)%list = run sc O last (AttrName t (canon m)) rest.
Proof.
  intros Hr Hne Hm. destruct m as [|c m]; [congruence|]. pose proof Hm as Hm'. cbn [forallb] in Hm'. apply andb_prop in Hm'; destruct Hm' as [Hc _].
  destruct (attr_name_char_spec _ Hc) as (H1 & H2 & H3 & H4 & H5).
  assert (E : run sc O last s ((c :: m) ++ rest)%list = run sc O last (AttrName t []) ((c :: m) ++ rest)%list).
  { destruct Hr as [t|t k Hk]; cbn [app].
    - rewrite (run_again _ _ _ _ _ [] (AttrName t [])); [reflexivity|]. cbn [step]. rewrite H1, H3, H4, H5. reflexivity.
    - rewrite (run_again _ _ _ _ _ [] (AttrName (add_attr t k []) [])); [reflexivity|]. cbn [step]. rewrite H1, H3, H5, H4. cbn [andb].
      rewrite match_ne' by exact Hk. reflexivity. }
  rewrite E, run_attrname by exact Hm. reflexivity.
Qed.

(* after an attribute name (and possibly the newline Python's `$` lets through) *)
Inductive named : state -> tag -> str -> Prop :=
| named_attrname t k : k <> [] -> named (AttrName t k) t k
| named_after t k : k <> [] -> named (AfterAttrName t k) t k.

Lemma named_ready s t k : named s t k -> ready s (add_attr t k []).
Proof. intros []; constructor; assumption. Qed.

Lemma named_eq sc last s t k rest : named s t k -> run sc O last s (61 :: rest) = run sc O last (BeforeAttrValue t k) rest.
Proof.
  intros [t' k' Hk|t' k' Hk]; apply run_eat; [reflexivity|]. cbn [step]. change (ws 61) with false. change (61 =? 47) with false.
  change (61 =? 61) with true. rewrite !match_ne' by exact Hk. reflexivity.
Qed.

Lemma attr_name_re_spec k : attr_name_re k = true -> drop_final_nl k <> [] /\ forallb attr_name_char (drop_final_nl k) = true.
Proof. unfold attr_name_re. destruct (drop_final_nl k) as [|c m]; [discriminate|]. intros H; split; [discriminate|exact H]. Qed.

Lemma canon_ne m : m <> [] -> canon m <> [].
Proof. destruct m; [congruence|discriminate]. Qed.

Lemma ready_key_full sc last s t k : ready_key s t -> attr_name_re k = true ->
  exists s', named s' t (canon_name k) /\ forall rest, run sc O last s (k ++ rest)%list = run sc O last s' rest.
Proof.
  intros Hr Hk. apply attr_name_re_spec in Hk. destruct Hk as [Hne Hok].
  destruct (drop_final_nl_cases k) as [[E _]|E].
  - exists (AttrName t (canon_name k)). split; [constructor; apply canon_ne; exact Hne|]. intros rest.
    rewrite <- E at 1. apply ready_key_name; assumption.
  - exists (AfterAttrName t (canon_name k)). split; [constructor; apply canon_ne; exact Hne|]. intros rest.
    rewrite E at 1. rewrite <- app_assoc, (ready_key_name sc last s t) by assumption.
    cbn [app]. rewrite (run_again _ _ _ _ _ [] (AfterAttrName t (canon (drop_final_nl k)))) by reflexivity. cbn [app].
    apply run_eat. reflexivity.
Qed.

(* ---------- attributes ---------- *)
Lemma choose_quote v f : choose_attr_quote v f = 34 \/ choose_attr_quote v f = 39.
Proof.
  unfold choose_attr_quote.
  assert (H : forall v : option str, match v with None => 34 | Some v => if mem 34 v && negb (mem 39 v) then 39 else 34 end = 34 \/
     match v with None => 34 | Some v => if mem 34 v && negb (mem 39 v) then 39 else 34 end = 39).
  { intros [w|]; [destruct (_ && _)|]; auto. }
  destruct f as [[|q [|? ?]]|]; auto.
  - destruct q as [|p]; auto. do 6 (destruct p; auto).
  - destruct q as [|p]; auto. do 6 (destruct p; auto).
Qed.

Lemma serialize_attr_reads sc last o ns name k v s st t :
  serialize_attr o ns name k v = Some s -> ready st t ->
  exists st' kv', attr_shown (minimize_boolean_attributes o) (k, v) kv' /\ ready st' (add_attr t (fst kv') (snd kv')) /\
    forall rest, run sc O last st (s ++ rest)%list = run sc O last st' rest.
Proof.
  intros Hs Hr. unfold serialize_attr, validate_attr_name in Hs. destruct (attr_name_re k) eqn:Hk; [|discriminate].
  set (w := match v with Some x => x | None => [] end) in *.
  assert (Ew : match v return list N with Some x => x | None => [] end = w) by reflexivity. clearbody w.
  (* read the space and the name *)
  destruct (ready_ws sc last st t 32 [] Hr eq_refl) as (s1 & Hs1 & _).
  assert (Hsp : exists s2, named s2 t (canon_name k) /\ forall rest, run sc O last st (32 :: k ++ rest)%list = run sc O last s2 rest).
  { clear Hs1 s1.
    assert (Hex : exists s1, ready_key s1 t /\ forall rest, run sc O last st (32 :: rest) = run sc O last s1 rest).
    { destruct Hr as [e n|t|t kk Hkk|t kk Hkk|t kk vv|t].
      - exists (BeforeAttrName (Tag e n [])); split; [constructor|]. intros; apply run_eat; reflexivity.
      - exists (BeforeAttrName t); split; [constructor|]. intros; apply run_eat; reflexivity.
      - exists (AfterAttrName t kk); split; [constructor; assumption|]. intros.
        rewrite (run_again _ _ _ _ _ [] (AfterAttrName t kk)) by reflexivity. cbn [app]. apply run_eat; reflexivity.
      - exists (AfterAttrName t kk); split; [constructor; assumption|]. intros; apply run_eat; reflexivity.
      - exists (BeforeAttrName (add_attr t kk vv)); split; [constructor|]. intros; apply run_eat; reflexivity.
      - exists (BeforeAttrName t); split; [constructor|]. intros; apply run_eat; reflexivity. }
    destruct Hex as (s1 & Hs1 & E1). destruct (ready_key_full sc last s1 t k Hs1 Hk) as (s2 & Hs2 & E2).
    exists s2; split; [exact Hs2|]. intros rest. rewrite E1. apply E2. }
  clear s1 Hs1. destruct Hsp as (s2 & Hs2 & E2).
  destruct (minimize_boolean_attributes o && match w with [] => true | _ :: _ => false end) eqn:C1.
  { injection Hs as <-. exists s2, (canon_name k, []). cbn [fst snd]. split; [|split].
    - split; [reflexivity|]. left. cbn [fst snd]. rewrite Ew. destruct w; [reflexivity|]. rewrite Bool.andb_false_r in C1. discriminate.
    - apply named_ready; exact Hs2.
    - intros rest. cbn [app]. apply E2. }
  match type of Hs with (if ?b then _ else _) = _ => destruct b eqn:C2 end.
  { injection Hs as <-. exists s2, (canon_name k, []). cbn [fst snd]. split; [|split].
    - split; [reflexivity|]. apply andb_prop in C2. destruct C2 as [C2 Cl]. apply andb_prop in C2. destruct C2 as [C2 Ca].
      apply andb_prop in C2. destruct C2 as [C2 _]. apply andb_prop in C2. destruct C2 as [C2 _].
      apply str_eqb_eq in Cl. destruct v as [v|].
      + subst w. right. cbn [fst snd]. split; [exact C2|]. split; [reflexivity|]. exists v. auto.
      + left. reflexivity.
    - apply named_ready; exact Hs2.
    - intros rest. cbn [app]. apply E2. }
  destruct (match w with [] => true | _ :: _ => false end) eqn:Cw.
  { injection Hs as <-. exists (AfterAttrValQuoted (add_attr t (canon_name k) [])), (canon_name k, []). cbn [fst snd]. split; [|split].
    - split; [reflexivity|]. left. cbn [fst snd]. rewrite Ew. destruct w; [reflexivity|discriminate].
    - constructor.
    - intros rest. cbn [app]. rewrite <- app_assoc, E2. cbn [app].
      rewrite (named_eq _ _ _ _ _ _ Hs2). rewrite (run_eat _ _ _ _ _ (AttrValDQ t (canon_name k) [])) by reflexivity.
      apply run_eat. reflexivity. }
  destruct (negb (quote_attr_values o) && can_unquote_attr_value w) eqn:Cu.
  { injection Hs as <-. apply andb_prop in Cu. destruct Cu as [_ Cu]. unfold can_unquote_attr_value in Cu. apply Bool.negb_true_iff in Cu.
    exists (AttrValUnq t (canon_name k) (map nul w)), (canon_name k, map nul w). cbn [fst snd]. split; [|split].
    - split; [reflexivity|]. left. cbn [snd]. rewrite Ew. reflexivity.
    - constructor.
    - intros rest. cbn [app]. rewrite <- app_assoc, E2. cbn [app].
      rewrite (named_eq _ _ _ _ _ _ Hs2), escu_flat.
      assert (E3 : run sc O last (BeforeAttrValue t (canon_name k)) (flat_map escu w ++ rest)%list
                   = run sc O last (AttrValUnq t (canon_name k) []) (flat_map escu w ++ rest)%list).
      { destruct w as [|c w']; [discriminate|]. cbn [flat_map]. rewrite <- app_assoc. cbn [existsb] in Cu.
        apply Bool.orb_false_iff in Cu. destruct Cu as [Cc _]. unfold unquoted_invalid, mem in Cc. cbn [existsb] in Cc.
        assert (exists x y, escu c = x :: y /\ ws x = false /\ (x =? 34) = false /\ (x =? 39) = false /\ (x =? 62) = false) as (x & y & -> & A1 & A2 & A3 & A4).
        { unfold escu. destruct (N.eqb_spec c 38); [eexists; eexists; repeat split; reflexivity|].
          destruct (N.eqb_spec c 60); [eexists; eexists; repeat split; reflexivity|].
          exists c, []. unfold ws. repeat split; lia. }
        cbn [app]. rewrite (run_again _ _ _ _ _ [] (AttrValUnq t (canon_name k) [])); [reflexivity|].
        cbn [step]. rewrite A1, A2, A3, A4. reflexivity. }
      rewrite E3, run_attr_unq by exact Cu. reflexivity. }
  injection Hs as <-. set (q := choose_attr_quote v (quote_char o)).
  exists (AfterAttrValQuoted (add_attr t (canon_name k) (map nul w))), (canon_name k, map nul w). cbn [fst snd]. split; [|split].
  - split; [reflexivity|]. left. cbn [snd]. rewrite Ew. reflexivity.
  - constructor.
  - intros rest. cbn [app]. rewrite <- app_assoc, E2. cbn [app]. rewrite (named_eq _ _ _ _ _ _ Hs2).
    rewrite <- app_assoc. destruct (choose_quote v (quote_char o)) as [Hq|Hq]; fold q in Hq; rewrite Hq.
    + rewrite (run_eat _ _ _ _ _ (AttrValDQ t (canon_name k) [])) by reflexivity.
      rewrite escape_attr_value_flat by auto. cbn [app]. apply run_attr_dq.
    + rewrite (run_eat _ _ _ _ _ (AttrValSQ t (canon_name k) [])) by reflexivity.
      rewrite escape_attr_value_flat by auto. cbn [app]. apply run_attr_sq.
Qed.

(* the attribute list of a token: a later attribute with the name of an earlier one is dropped *)
Definition add_all (t : tag) (l : list (str * str)) : tag := fold_left (fun t p => add_attr t (fst p) (snd p)) l t.
Lemma add_all_name t l : t_name (add_all t l) = t_name t /\ t_end (add_all t l) = t_end t.
Proof. revert t; induction l as [|p l IH]; intros t; [auto|]. cbn [add_all fold_left]. fold (add_all (add_attr t (fst p) (snd p)) l). destruct (IH (add_attr t (fst p) (snd p))) as [-> ->]. auto. Qed.
Lemma add_all_attrs t l :
  t_attrs (add_all t l) = fold_left (fun acc p => if existsb (fun q => str_eqb (fst p) (fst q)) acc then acc else (acc ++ [p])%list) l (t_attrs t).
Proof.
  revert t; induction l as [|p l IH]; intros t; [reflexivity|]. cbn [add_all fold_left].
  fold (add_all (add_attr t (fst p) (snd p)) l). rewrite IH. f_equal. unfold add_attr. cbn [t_attrs]. destruct p; reflexivity.
Qed.

Lemma serialize_attrs_reads sc last o ns name attrs : forall s st t,
  serialize_attrs o ns name attrs = Some s -> ready st t ->
  exists st' kvs, Forall2 (attr_shown (minimize_boolean_attributes o)) attrs kvs /\ ready st' (add_all t kvs) /\
    forall rest, run sc O last st (s ++ rest)%list = run sc O last st' rest.
Proof.
  induction attrs as [|[k v] attrs IH]; intros s st t Hs Hr; cbn [serialize_attrs] in Hs.
  - injection Hs as <-. exists st, []. split; [constructor|]. split; [exact Hr|]. reflexivity.
  - destruct (serialize_attr o ns name k v) as [s1|] eqn:E1; [|discriminate].
    destruct (serialize_attrs o ns name attrs) as [s2|] eqn:E2; [|discriminate]. cbn in Hs. injection Hs as <-.
    destruct (serialize_attr_reads sc last o ns name k v s1 st t E1 Hr) as (st1 & kv & Hkv & Hr1 & Er1).
    destruct (IH s2 st1 _ eq_refl Hr1) as (st2 & kvs & Hkvs & Hr2 & Er2).
    exists st2, (kv :: kvs). split; [constructor; assumption|]. split; [exact Hr2|].
    intros rest. rewrite <- app_assoc, Er1. apply Er2.
Qed.

Lemma tag_name_re_spec name : tag_name_re name = true ->
  exists c m, drop_final_nl name = c :: m /\ is_alpha_ascii c = true /\ forallb tag_name_char (c :: m) = true.
Proof.
  unfold tag_name_re. destruct (drop_final_nl name) as [|c m]; [discriminate|]. intros H; apply andb_prop in H; destruct H as [H1 H2].
  exists c, m. split; [reflexivity|]. split; [exact H1|]. cbn [forallb]. rewrite H2. destruct (is_alpha_not c H1) as (_ & _ & ->). reflexivity.
Qed.

(* reading a validated tag name leaves the tokenizer ready *)
Lemma run_name_ready sc last e name : tag_name_re name = true ->
  exists st, ready st (Tag e (canon_name name) []) /\
    forall rest, run sc O last (TagName e []) (name ++ rest)%list = run sc O last st rest.
Proof.
  intros H. apply tag_name_re_spec in H. destruct H as (c & m & E & _ & Hall). rewrite <- E in Hall.
  destruct (drop_final_nl_cases name) as [[E' _]|E'].
  - exists (TagName e (canon_name name)). split; [constructor|]. intros rest. rewrite <- E' at 1. apply run_tagname; exact Hall.
  - exists (BeforeAttrName (Tag e (canon_name name) [])). split; [constructor|]. intros rest. rewrite E' at 1. rewrite <- app_assoc, run_tagname by exact Hall.
    apply run_eat. reflexivity.
Qed.

Lemma run_open sc last name rest : tag_name_re name = true ->
  run sc O last Data (60 :: name ++ rest)%list = run sc O last (TagName false []) (name ++ rest)%list.
Proof.
  intros H. apply tag_name_re_spec in H. destruct H as (c & m & E & Ha & _).
  destruct (is_alpha_not c Ha) as (H1 & H2 & _).
  assert (exists m', name = c :: m') as (m' & ->).
  { destruct (drop_final_nl_cases name) as [[E' _]|E']; rewrite E in E'; [exists m|exists (m ++ [10])%list]; [symmetry; exact E'|exact E']. }
  cbn [app]. rewrite (run_eat _ _ _ _ _ TagOpen) by reflexivity.
  rewrite (run_again _ _ _ _ _ [] (TagName false [])); [reflexivity|]. cbn [step]. rewrite H1, H2, Ha. reflexivity.
Qed.
Lemma run_close sc last name rest : tag_name_re name = true ->
  run sc O last Data (60 :: 47 :: name ++ rest)%list = run sc O last (TagName true []) (name ++ rest)%list.
Proof.
  intros H. apply tag_name_re_spec in H. destruct H as (c & m & E & Ha & _).
  assert (exists m', name = c :: m') as (m' & ->).
  { destruct (drop_final_nl_cases name) as [[E' _]|E']; rewrite E in E'; [exists m|exists (m ++ [10])%list]; [symmetry; exact E'|exact E']. }
  cbn [app]. rewrite (run_eat _ _ _ _ _ TagOpen) by reflexivity. rewrite (run_eat _ _ _ _ _ EndTagOpen) by reflexivity.
  rewrite (run_again _ _ _ _ _ [] (TagName true [])); [reflexivity|]. cbn [step]. rewrite Ha. reflexivity.
Qed.

Lemma start_tag_reads o ns name attrs s : serialize_start_tag o ns name attrs = Some s ->
  forall sc last, exists kvs, Forall2 (attr_shown (minimize_boolean_attributes o)) attrs kvs /\
    forall rest, run sc O last Data (s ++ rest)%list
      = TStart (canon_name name) (first_wins kvs) (use_trailing_solidus o && is_void o)
        :: run sc O (canon_name name) (switch sc (canon_name name)) rest.
Proof.
  unfold serialize_start_tag, validate_tag_name. destruct (tag_name_re name) eqn:Hn; [|discriminate].
  destruct (serialize_attrs o ns name attrs) as [a|] eqn:Ha; [|discriminate]. intros Hs sc last. injection Hs as <-.
  destruct (run_name_ready sc last false name Hn) as (st & Hr & Est).
  destruct (serialize_attrs_reads sc last o ns name attrs a st _ Ha Hr) as (st' & kvs & Hkvs & Hr' & Est').
  exists kvs. split; [exact Hkvs|]. intros rest.
  cbn [app]. rewrite <- app_assoc, run_open, Est by exact Hn. rewrite <- app_assoc, Est'.
  assert (Hem : forall b, emit_run sc last (add_all (Tag false (canon_name name) []) kvs) b rest
     = TStart (canon_name name) (first_wins kvs) b :: run sc O (canon_name name) (switch sc (canon_name name)) rest).
  { intros b. unfold emit_run. destruct (add_all_name (Tag false (canon_name name) []) kvs) as [-> ->]. rewrite add_all_attrs. reflexivity. }
  destruct (use_trailing_solidus o && is_void o).
  - change (u " />" ++ rest)%list with (32 :: 47 :: 62 :: rest).
    destruct (ready_ws sc last st' _ 32 (47 :: 62 :: rest) Hr' eq_refl) as (s1 & Hs1 & ->).
    rewrite (ready_key_solidus _ _ _ _ _ Hs1). apply Hem.
  - change (u ">" ++ rest)%list with (62 :: rest). rewrite (ready_gt _ _ _ _ _ Hr'). apply Hem.
Qed.

Lemma end_tag_reads name sc last rest : tag_name_re name = true ->
  run sc O last Data (60 :: 47 :: name ++ 62 :: rest)%list = TEnd (canon_name name) :: run sc O last Data rest.
Proof.
  intros Hn. rewrite run_close by exact Hn. destruct (run_name_ready sc last true name Hn) as (st & Hr & Est).
  rewrite Est, (ready_gt _ _ _ _ _ Hr). reflexivity.
Qed.

(* distinct names: nothing is dropped *)
Lemma first_wins_nodup_acc (l acc : list (str * str)) : NoDup (map fst (acc ++ l)%list) ->
  fold_left (fun acc p => if existsb (fun q => str_eqb (fst p) (fst q)) acc then acc else (acc ++ [p])%list) l acc = (acc ++ l)%list.
Proof.
  revert acc; induction l as [|p l IH]; intros acc H; cbn [fold_left]; [rewrite app_nil_r; reflexivity|].
  replace (existsb (fun q => str_eqb (fst p) (fst q)) acc) with false.
  - rewrite IH; rewrite <- app_assoc; [reflexivity|exact H].
  - symmetry. apply Bool.not_true_iff_false. rewrite existsb_exists. intros (q & Hq & E). apply str_eqb_eq in E.
    rewrite map_app in H. cbn [map] in H. apply NoDup_remove_2 in H. apply H. apply in_or_app. left. rewrite E. apply in_map; exact Hq.
Qed.
Lemma first_wins_nodup l : NoDup (map fst l) -> first_wins l = l.
Proof. intros H. unfold first_wins. rewrite first_wins_nodup_acc by exact H. reflexivity. Qed.
