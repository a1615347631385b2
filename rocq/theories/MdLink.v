(* C46: a reader finds the end of the destination where it was written *)
From Coq Require Import ZArith Lia ZifyBool ZifyN ZifyNat.
From Verif Require Import Str StrFacts SerializerModel JsSpec PercentSpec MdModel MdSpec MdProofs MdGrammar.
From Verif Require JsUrlProofs.
Open Scope list_scope. Open Scope N_scope.

Local Ltac Zify.zify_post_hook ::= Z.to_euclidean_division_equations.
Definition special : str := u " ()<>" ++ [9; 10; 13].
Lemma special_same d : existsb (fun ch => mem ch d) (u " " ++ [9; 10; 13] ++ u "()<>") = true <-> exists c, In c d /\ In c special.
Proof.
  split.
  - intros H. apply existsb_exists in H as (c & Ic & M). exists c. split; [apply StrFacts.mem_In, M|]. cbn in *. tauto.
  - intros (c & I1 & I2). apply existsb_exists. exists c. split; [cbn in *; tauto|apply StrFacts.mem_In, I1].
Qed.
Lemma destination_cases url d : link_destination url = Some d ->
  (strip url = [] /\ d = []) \/ ((forall c, In c d -> ~ In c special) /\ d = strip url) \/ ((exists c, In c (strip url) /\ In c special) /\ exists q, utf8_encode (strip url) = Some q /\ d = 60 :: flat_map md_quote_byte q ++ [62]).
Proof.
  unfold link_destination. cbv zeta. intros H. destruct (strip url) as [|c0 s0] eqn:E; [left; split; [reflexivity|injection H as <-; reflexivity]|]. right. rewrite <- E in *. clear E c0 s0. destruct (existsb _ _) eqn:X.
  - right. split; [apply special_same, X|]. destruct (utf8_encode (strip url)) as [q|]; [|discriminate H]. exists q. split; [reflexivity|]. cbn [option_map] in H. injection H as <-. reflexivity.
  - left. assert (d = strip url) as -> by congruence. split; [|reflexivity]. intros c I J. assert (K : existsb (fun ch => mem ch (strip url)) (u " " ++ [9; 10; 13] ++ u "()<>") = true) by (apply special_same; exists c; split; assumption). rewrite K in X. discriminate X.
Qed.
Definition angle_char (c : N) : bool := negb (mem c ([60; 62; 92; 10; 13])).
Lemma angle_ok q r : (forall c, In c q -> angle_char c = true) -> angle_go (q ++ 62 :: r) = Some (q, r).
Proof.
  induction q as [|c q IH]; intros H; [reflexivity|]. pose proof (H c (or_introl eq_refl)) as Hc. cbn [app angle_go].
  assert (K : c =? 62 = false /\ (c =? 60) || (c =? 10) || (c =? 13) = false /\ c =? 92 = false) by (unfold angle_char, mem in Hc; cbn [existsb] in Hc; destruct (c =? 60), (c =? 62), (c =? 92), (c =? 10), (c =? 13); try discriminate Hc; auto).
  destruct K as (-> & -> & ->). rewrite IH by (intros x I; apply H; right; exact I). reflexivity.
Qed.
Lemma quoted_angle q c : (forall b, In b q -> b < 256) -> In c (flat_map md_quote_byte q) -> angle_char c = true.
Proof.
  intros Hq I. apply in_flat_map in I as (b & Ib & Ic). specialize (Hq b Ib). unfold md_quote_byte in Ic.
  assert (Hex : forall n, n < 16 -> angle_char (hex_upper n) = true).
  { intros n H. assert (A : forallb (fun n => angle_char (hex_upper n)) (map N.of_nat (seq 0 16)) = true) by (vm_compute; reflexivity). rewrite forallb_forall in A. apply A. rewrite <- (N2Nat.id n). apply in_map, in_seq. lia. }
  destruct (md_safe b) eqn:M.
  - destruct Ic as [<-|[]]. unfold angle_char. destruct (mem b _) eqn:Q; [|reflexivity]. apply StrFacts.mem_In in Q. cbn in Q. repeat (destruct Q as [<-|Q]; [vm_compute in M; discriminate M|]). destruct Q.
  - destruct Ic as [<-|[<-|[<-|[]]]]; [reflexivity| |]; apply Hex; [apply N.div_lt_upper_bound; lia|apply N.mod_lt; lia].
Qed.
Definition bare_char (c : N) : bool := negb (control_or_space c || mem c (u "\()")).
Lemma bare_ok d r : (forall c, In c d -> bare_char c = true) -> bare_go 0 (d ++ 41 :: r) = (d, 41 :: r).
Proof.
  induction d as [|c d IH]; intros H; [reflexivity|]. pose proof (H c (or_introl eq_refl)) as Hc. cbn [app bare_go]. unfold bare_char, mem in Hc. cbn [existsb u] in Hc.
  change (negb (control_or_space c || ((c =? 92) || ((c =? 40) || ((c =? 41) || false)))) = true) in Hc. destruct (control_or_space c), (c =? 92), (c =? 40), (c =? 41); try discriminate Hc. rewrite IH by (intros x I; apply H; right; exact I). reflexivity.
Qed.
Lemma md_safe_small b : md_safe b = true -> b < 128.
Proof.
  intros H. unfold md_safe in H. apply orb_prop in H as [H|H]; [apply orb_prop in H as [H|H]|].
  - unfold is_alnum_ascii, is_alpha_ascii, is_upper_ascii, is_lower_ascii, is_digit_ascii in H. lia.
  - apply StrFacts.mem_In in H. vm_compute in H. lia.
  - apply StrFacts.mem_In in H. assert (A : forallb (fun c => c <? 128) (u ":/?#[]@!$&'*+,;=%-._~()") = true) by (vm_compute; reflexivity). rewrite forallb_forall in A. specialize (A b H). lia.
Qed.
Lemma md_quote_decode bs : Forall (fun b => b < 256) bs -> ~ In 37 bs -> percent_decode (flat_map md_quote_byte bs) = Some bs.
Proof.
  induction 1 as [|b bs Hb Hbs IH]; intros N37; [reflexivity|]. cbn [flat_map]. assert (E : percent_decode (md_quote_byte b ++ flat_map md_quote_byte bs) = option_map (cons b) (percent_decode (flat_map md_quote_byte bs))).
  { unfold md_quote_byte at 1. destruct (md_safe b) eqn:E.
    - cbn [app percent_decode]. pose proof (md_safe_small b E). assert (b <> 37) by (intros ->; apply N37; left; reflexivity). replace (b =? 37) with false by lia. replace (b <? 128) with true by lia. reflexivity.
    - cbn [app percent_decode]. change (37 =? 37) with true. cbv iota.
      assert (Hh : forall d, d < 16 -> hex_digit (hex_upper d) = Some d).
      { intros d Hd. unfold hex_upper, hex_digit. destruct (d <? 10) eqn:Ed.
        - replace ((48 <=? 48 + d) && (48 + d <=? 57)) with true by lia. f_equal. lia.
        - replace ((48 <=? 55 + d) && (55 + d <=? 57)) with false by lia. replace ((65 <=? 55 + d) && (55 + d <=? 70)) with true by lia. f_equal. lia. }
      rewrite !Hh by lia. f_equal. f_equal. lia. }
  rewrite E, IH; [reflexivity|]. intros I. apply N37. right. exact I.
Qed.
Lemma utf8_no_percent s : (forall c, In c s -> c <> 37) -> forall bs, utf8_encode s = Some bs -> ~ In 37 bs.
Proof.
  induction s as [|c s IH]; intros H bs E; cbn [utf8_encode] in E; [injection E as <-; intros []|]. destruct (utf8_encode1 c) as [a|] eqn:Ea; [|discriminate E]. destruct (utf8_encode s) as [b|] eqn:Eb; [|discriminate E]. injection E as <-. intros I. apply in_app_or in I as [I|I]; [|exact (IH (fun x J => H x (or_intror J)) b eq_refl I)].
  specialize (H c (or_introl eq_refl)). unfold utf8_encode1 in Ea. destruct (c <? 128) eqn:E1; [injection Ea as <-; destruct I as [I|[]]; congruence|].
  assert (Bd : forall k m, 128 <= k -> k + m = 37 -> False) by (clear; intros k m; lia).
  assert (G : forall l, Some l = Some a -> In 37 l) by (intros l F; assert (l = a) as -> by congruence; exact I).
  destruct (c <? 2048); [apply G in Ea|destruct (_ && _); [discriminate Ea|destruct (c <? 65536); apply G in Ea]]; clear G I; repeat (destruct Ea as [I|Ea]; [apply (Bd _ _) with (2 := I); discriminate|]); destruct Ea.
Qed.
(* the destination, read by CommonMark *)
Theorem destination_wrapped url d r : JsUrlProofs.unicode url -> link_destination url = Some d -> (exists c, In c (strip url) /\ In c special) ->
  exists w, d = 60 :: w ++ [62] /\ destination (d ++ 41 :: r) = Some (w, 41 :: r) /\ (forall c, In c w -> ~ In c (u " \<>" ++ [9; 10; 13])) /\
    (~ In 37 url -> exists bytes, percent_decode w = Some bytes /\ utf8_decode bytes = Some (strip url)).
Proof.
  intros Hu H Hs. assert (Hu' : JsUrlProofs.unicode (strip url)) by (apply Forall_forall; intros c I; unfold JsUrlProofs.unicode in Hu; rewrite Forall_forall in Hu; apply Hu; exact (strip_incl _ _ _ I)).
  destruct (destination_cases url d H) as [[E _]|[[Hn ->]|[_ (q & Eq & ->)]]]; [destruct Hs as (c & I & _); rewrite E in I; destruct I|destruct Hs as (c & I & J); destruct (Hn c I J)|].
  destruct (JsUrlProofs.utf8_decode_encode _ Hu' q Eq) as [D1 D2]. assert (Hq : forall b, In b q -> b < 256) by (intros b I; rewrite Forall_forall in D2; exact (D2 b I)).
  exists (flat_map md_quote_byte q). split; [reflexivity|]. split; [|split].
  - cbn [app destination]. change (60 =? 60) with true. cbv iota. rewrite <- app_assoc. cbn [app]. apply angle_ok. intros c I. exact (quoted_angle q c Hq I).
  - intros c I J. pose proof (dest_char_spec c (quoted_ok q c I)) as K1. pose proof (quoted_angle q c Hq I) as K2. cbn in J. repeat (destruct J as [<-|J]; [first [discriminate K2|apply K1; cbn; tauto]|]). destruct J.
  - intros N37. exists q. split; [|exact D1]. apply md_quote_decode; [exact D2|]. apply (utf8_no_percent (strip url)) with (2 := Eq). intros c I ->. apply N37. exact (strip_incl _ _ _ I).
Qed.
Theorem destination_bare url d r : link_destination url = Some d -> strip url <> [] -> (forall c, In c (strip url) -> ~ In c special) -> (forall c, In c (strip url) -> c <> 92 /\ control_or_space c = false) ->
  d = strip url /\ destination (d ++ 41 :: r) = Some (strip url, 41 :: r).
Proof.
  intros H Hn Hs Hc. destruct (destination_cases url d H) as [[E _]|[[_ ->]|[(c & I & J) _]]]; [congruence| |destruct (Hs c I J)]. split; [reflexivity|]. assert (K : bare_go 0 (strip url ++ 41 :: r) = (strip url, 41 :: r)).
  { apply bare_ok. intros c I. unfold bare_char. destruct (Hc c I) as [C1 C2]. rewrite C2. cbn [orb]. destruct (mem c (u "\()")) eqn:M; [|reflexivity]. apply StrFacts.mem_In in M. destruct (Hs c I). cbn in *. intuition congruence. }
  unfold destination. destruct (strip url) as [|c s] eqn:E; [congruence|]. cbn [app] in *. destruct (N.eqb_spec c 60) as [->|_]; [destruct (Hs 60 (or_introl eq_refl)); cbn; tauto|]. rewrite K. reflexivity.
Qed.
