(* Proofs: JavaScript string escaping and URL percent-encoding *)
From Coq Require Import ZArith Lia ZifyBool ZifyN ZifyNat.
From Verif Require Import Str StrFacts JsSpec PercentSpec HtmlTokSpec SerializerModel SerEscapeProofs.
Open Scope N_scope.
Ltac Zify.zify_post_hook ::= Z.to_euclidean_division_equations.

(* ---------- JavaScript ---------- *)
Lemma js_go_mono q k : forall s v, js_eval_go k q s = Some v -> js_eval_go (S k) q s = Some v.
Proof.
  induction k as [|k IH]; intros s v H; [destruct s; [exact H|discriminate]|].
  destruct s as [|c t]; [exact H|]. cbn [js_eval_go] in H. change (js_eval_go (S (S k)) q (c :: t)) with
   (if c =? q then None else if (c =? 10) || (c =? 13) then None else if c =? 92 then
        match js_escape t with Some (v, t') => option_map (app v) (js_eval_go (S k) q t') | None => None end
      else option_map (cons c) (js_eval_go (S k) q t)).
  destruct (c =? q); [discriminate|]. destruct ((c =? 10) || (c =? 13)); [discriminate|].
  destruct (c =? 92).
  - destruct (js_escape t) as [[w t']|]; [|discriminate]. destruct (js_eval_go k q t') as [x|] eqn:E; [|discriminate]. rewrite (IH _ _ E). exact H.
  - destruct (js_eval_go k q t) as [x|] eqn:E; [|discriminate]. rewrite (IH _ _ E). exact H.
Qed.
Lemma js_go_le q k m s v : (k <= m)%nat -> js_eval_go k q s = Some v -> js_eval_go m q s = Some v.
Proof. intros H; induction H as [|m H IH]; [auto|]. intros E. apply js_go_mono, IH, E. Qed.

Lemma js_char q c rest v : q = 34 \/ q = 39 -> js_eval q rest = Some v -> js_eval q (escape_js_char q c ++ rest)%list = Some (c :: v).
Proof.
  intros Hq H. unfold js_eval in *. unfold escape_js_char.
  assert (L1 : forall (e : str) w, (1 <= List.length e)%nat -> js_eval_go (S (List.length rest)) q (e ++ rest)%list = Some w ->
             js_eval_go (List.length (e ++ rest)%list) q (e ++ rest)%list = Some w).
  { intros e w Hl. apply js_go_le. rewrite app_length. lia. }
  assert (L2 : forall (b : N) (t : str), js_escape (b :: t ++ rest)%list = Some ([c], rest) -> js_eval_go (S (List.length rest)) q ((92 :: b :: t) ++ rest)%list = Some (c :: v)).
  { intros b t E. cbn [js_eval_go app]. replace (92 =? q) with false by lia. change ((92 =? 10) || (92 =? 13)) with false. change (92 =? 92) with true. cbv iota. rewrite E, H. reflexivity. }
  destruct (N.eqb_spec c 92) as [->|H92]. { apply L1; [cbn; lia|]. apply (L2 92 []). reflexivity. }
  destruct (N.eqb_spec c q) as [Hcq|Hcq]. { apply L1; [cbn; lia|]. apply (L2 q []). rewrite <- Hcq in *. destruct Hq as [->| ->]; reflexivity. }
  destruct (N.eqb_spec c 10) as [->|H10]. { apply L1; [cbn; lia|]. apply (L2 110 []). reflexivity. }
  destruct (N.eqb_spec c 13) as [->|H13]. { apply L1; [cbn; lia|]. apply (L2 114 []). reflexivity. }
  destruct (N.eqb_spec c 9) as [->|H9]. { apply L1; [cbn; lia|]. apply (L2 116 []). reflexivity. }
  destruct (N.eqb_spec c 8) as [->|H8]. { apply L1; [cbn; lia|]. apply (L2 98 []). reflexivity. }
  destruct (N.eqb_spec c 12) as [->|H12]. { apply L1; [cbn; lia|]. apply (L2 102 []). reflexivity. }
  destruct (N.eqb_spec c 60) as [->|H60]. { apply L1; [cbn; lia|]. apply (L2 117 (u "003c")). reflexivity. }
  destruct (N.eqb_spec c 62) as [->|H62]. { apply L1; [cbn; lia|]. apply (L2 117 (u "003e")). reflexivity. }
  destruct (N.eqb_spec c 8232) as [->|H2028]. { apply L1; [cbn; lia|]. apply (L2 117 (u "2028")). reflexivity. }
  destruct (N.eqb_spec c 8233) as [->|H2029]. { apply L1; [cbn; lia|]. apply (L2 117 (u "2029")). reflexivity. }
  cbn [app List.length js_eval_go]. replace (c =? q) with false by lia. replace (c =? 10) with false by lia. replace (c =? 13) with false by lia.
  replace (c =? 92) with false by lia. cbn [orb]. rewrite H. reflexivity.
Qed.

Lemma js_string_eval q v out : escape_js_string v [q] = Some out -> js_eval q out = Some v.
Proof.
  unfold escape_js_string. destruct ((q =? 34) || (q =? 39)) eqn:E; [|discriminate]. intros H; injection H as <-.
  assert (Hq : q = 34 \/ q = 39) by lia. induction v as [|c v IH]; [reflexivity|]. cbn [flat_map]. apply js_char; assumption.
Qed.

Lemma escape_js_char_no q c d : q = 34 \/ q = 39 -> In d (escape_js_char q c) -> d <> 60 /\ d <> 62 /\ d <> 10 /\ d <> 13 /\ d <> 8232 /\ d <> 8233.
Proof.
  intros Hq. unfold escape_js_char.
  repeat match goal with |- context [N.eqb c ?k] => destruct (N.eqb_spec c k); [subst; try (destruct Hq as [->| ->]); vm_compute; intuition (subst; discriminate)|] end.
  cbn. intuition congruence.
Qed.
Lemma js_string_safe q v out : escape_js_string v [q] = Some out ->
  forall d, In d out -> d <> 60 /\ d <> 62 /\ d <> 10 /\ d <> 13 /\ d <> 8232 /\ d <> 8233.
Proof.
  unfold escape_js_string. destruct ((q =? 34) || (q =? 39)) eqn:E; [|discriminate]. intros H; injection H as <-. intros d Hd.
  apply in_flat_map in Hd. destruct Hd as (c & _ & Hd). apply (escape_js_char_no q c); [lia|exact Hd].
Qed.
Lemma js_string_total v q : escape_js_string v q = None <-> (q <> [34] /\ q <> [39]).
Proof.
  unfold escape_js_string. destruct q as [|a [|b t]]; try (split; [intros _; split; discriminate|reflexivity]).
  destruct ((a =? 34) || (a =? 39)) eqn:E.
  - split; [discriminate|]. intros [H1 H2]. assert (a = 34 \/ a = 39) as [->| ->] by lia; congruence.
  - split; [intros _; split; intros H; injection H as ->; discriminate E|reflexivity].
Qed.

(* ---------- percent encoding ---------- *)
Lemma utf8_round c bs : utf8_encode1 c = Some bs -> c < 1114112 -> scalar c = true /\ Forall (fun b => b < 256) bs /\ bs <> [] /\ forall t, utf8_decode1 (bs ++ t)%list = Some (c, t).
Proof.
  unfold utf8_encode1. intros H Hc.
  destruct (c <? 128) eqn:E1.
  { apply (f_equal (fun o => match o with Some x => x | None => [] end)) in H; cbv beta iota in H; subst bs. repeat split; [unfold scalar; lia|repeat (apply Forall_cons; [lia|]); apply Forall_nil|discriminate|]. intros t. cbn [app utf8_decode1]. rewrite E1. reflexivity. }
  destruct (c <? 2048) eqn:E2.
  { apply (f_equal (fun o => match o with Some x => x | None => [] end)) in H; cbv beta iota in H; subst bs. repeat split; [unfold scalar; lia|repeat (apply Forall_cons; [lia|]); apply Forall_nil|discriminate|]. intros t. cbn [app utf8_decode1].
    replace (192 + c / 64 <? 128) with false by lia. replace ((194 <=? 192 + c / 64) && (192 + c / 64 <? 224)) with true by lia.
    unfold cont. replace ((128 <=? 128 + c mod 64) && (128 + c mod 64 <? 192)) with true by lia. do 2 f_equal. lia. }
  destruct ((55296 <=? c) && (c <? 57344)) eqn:E3; [discriminate|].
  destruct (c <? 65536) eqn:E4.
  { apply (f_equal (fun o => match o with Some x => x | None => [] end)) in H; cbv beta iota in H; subst bs. repeat split; [unfold scalar; lia|repeat (apply Forall_cons; [lia|]); apply Forall_nil|discriminate|]. intros t. cbn [app utf8_decode1].
    replace (224 + c / 4096 <? 128) with false by lia. replace ((194 <=? 224 + c / 4096) && (224 + c / 4096 <? 224)) with false by lia.
    replace ((224 <=? 224 + c / 4096) && (224 + c / 4096 <? 240)) with true by lia. cbv zeta.
    replace ((224 + c / 4096 - 224) * 4096 + (128 + c / 64 mod 64 - 128) * 64 + (128 + c mod 64 - 128)) with c by lia.
    unfold cont, scalar. replace ((128 <=? 128 + c / 64 mod 64) && (128 + c / 64 mod 64 <? 192) && ((128 <=? 128 + c mod 64) && (128 + c mod 64 <? 192)) && (2048 <=? c) && ((c <? 55296) || (57344 <=? c) && (c <? 1114112))) with true by lia.
    reflexivity. }
  apply (f_equal (fun o => match o with Some x => x | None => [] end)) in H; cbv beta iota in H; subst bs. repeat split; [unfold scalar; lia|repeat (apply Forall_cons; [lia|]); apply Forall_nil|discriminate|]. intros t. cbn [app utf8_decode1].
  replace (240 + c / 262144 <? 128) with false by lia. replace ((194 <=? 240 + c / 262144) && (240 + c / 262144 <? 224)) with false by lia.
  replace ((224 <=? 240 + c / 262144) && (240 + c / 262144 <? 240)) with false by lia. replace ((240 <=? 240 + c / 262144) && (240 + c / 262144 <? 245)) with true by lia. cbv zeta.
  replace ((240 + c / 262144 - 240) * 262144 + (128 + c / 4096 mod 64 - 128) * 4096 + (128 + c / 64 mod 64 - 128) * 64 + (128 + c mod 64 - 128)) with c by lia.
  unfold cont, scalar.
  replace ((128 <=? 128 + c / 4096 mod 64) && (128 + c / 4096 mod 64 <? 192)) with true by lia.
  replace ((128 <=? 128 + c / 64 mod 64) && (128 + c / 64 mod 64 <? 192)) with true by lia.
  replace ((128 <=? 128 + c mod 64) && (128 + c mod 64 <? 192)) with true by lia.
  replace (65536 <=? c) with true by lia. replace ((c <? 55296) || (57344 <=? c) && (c <? 1114112)) with true by lia. reflexivity.
Qed.

Definition unicode (s : str) : Prop := Forall (fun c => c < 1114112) s.

Lemma utf8_go_mono k : forall s v, utf8_decode_go k s = Some v -> utf8_decode_go (S k) s = Some v.
Proof.
  induction k as [|k IH]; intros s v H; [destruct s; [exact H|discriminate]|].
  destruct s as [|a t]; [exact H|]. cbn [utf8_decode_go] in H. 
  change (utf8_decode_go (S (S k)) (a :: t)) with (match utf8_decode1 (a :: t) with Some (c, t') => option_map (cons c) (utf8_decode_go (S k) t') | None => None end).
  destruct (utf8_decode1 (a :: t)) as [[c t']|]; [|discriminate]. destruct (utf8_decode_go k t') as [x|] eqn:E; [|discriminate]. rewrite (IH _ _ E). exact H.
Qed.
Lemma utf8_go_le k m s v : (k <= m)%nat -> utf8_decode_go k s = Some v -> utf8_decode_go m s = Some v.
Proof. intros H; induction H as [|m H IH]; [auto|]. intros E. apply utf8_go_mono, IH, E. Qed.

Lemma utf8_decode_encode s : unicode s -> forall bs, utf8_encode s = Some bs -> utf8_decode bs = Some s /\ Forall (fun b => b < 256) bs.
Proof.
  induction 1 as [|c s Hc Hs IH]; intros bs H; [injection H as <-; split; [reflexivity|constructor]|].
  cbn [utf8_encode] in H. destruct (utf8_encode1 c) as [a|] eqn:Ea; [|discriminate]. destruct (utf8_encode s) as [b|]; [|discriminate]. injection H as <-.
  destruct (IH b eq_refl) as [IH1 IH2]. destruct (utf8_round c a Ea Hc) as (_ & Hb & Hne & Hd).
  split; [|apply Forall_app; auto]. unfold utf8_decode in *. destruct a as [|x a]; [congruence|].
  apply (utf8_go_le (S (List.length b))); [cbn; rewrite app_length; lia|].
  cbn [utf8_decode_go app]. specialize (Hd b). cbn [app] in Hd. rewrite Hd. rewrite IH1. reflexivity.
Qed.
Lemma utf8_encode_total s : utf8_encode s = None <-> exists c, In c s /\ 55296 <= c < 57344.
Proof.
  induction s as [|c s IH]; cbn [utf8_encode]; [split; [discriminate|intros (c & [] & _)]|].
  assert (H1 : utf8_encode1 c = None <-> 55296 <= c < 57344).
  { unfold utf8_encode1. destruct (c <? 128) eqn:E1; [split; [discriminate|lia]|]. destruct (c <? 2048) eqn:E2; [split; [discriminate|lia]|].
    destruct ((55296 <=? c) && (c <? 57344)) eqn:E3; [split; [lia|reflexivity]|]. destruct (c <? 65536); split; try discriminate; lia. }
  destruct (utf8_encode1 c) as [a|].
  - destruct (utf8_encode s) as [b|].
    + split; [discriminate|]. intros (d & [->|Hd] & Hr); [apply H1 in Hr; discriminate|]. exfalso. assert (Some b = None) by (apply IH; eauto). discriminate.
    + split; [|reflexivity]. intros _. destruct (proj1 IH eq_refl) as (d & Hd & Hr). exists d; split; [right; exact Hd|exact Hr].
  - split; [|destruct (utf8_encode s); reflexivity]. intros _. exists c. split; [left; reflexivity|apply H1; reflexivity].
Qed.

Lemma quote_safe_class b : quote_safe b = true -> is_alnum_ascii b = true \/ In b (u "_.-~/:@?&=#+").
Proof.
  unfold quote_safe. intros H. apply orb_prop in H. destruct H as [H|H]; [apply orb_prop in H; destruct H as [H|H]; [left; exact H|]|]; right; apply mem_In in H; vm_compute in H |- *; intuition.
Qed.
Lemma quote_safe_small b : quote_safe b = true -> b <> 37 /\ b < 128.
Proof.
  intros H. apply quote_safe_class in H. destruct H as [H|H].
  - unfold is_alnum_ascii, is_alpha_ascii, is_upper_ascii, is_lower_ascii, is_digit_ascii in H. lia.
  - vm_compute in H. lia.
Qed.
Lemma quote_byte_decode b t : b < 256 -> percent_decode (quote_byte b ++ t)%list = option_map (cons b) (percent_decode t).
Proof.
  intros Hb. unfold quote_byte. destruct (quote_safe b) eqn:E.
  - cbn [app percent_decode]. pose proof (quote_safe_small b E).
    replace (b =? 37) with false by lia. replace (b <? 128) with true by lia. reflexivity.
  - cbn [app percent_decode]. change (37 =? 37) with true. cbv iota.
    assert (Hh : forall d, d < 16 -> hex_digit (hex_upper d) = Some d).
    { intros d Hd. unfold hex_upper, hex_digit. destruct (d <? 10) eqn:Ed.
      - replace ((48 <=? 48 + d) && (48 + d <=? 57)) with true by lia. f_equal. lia.
      - replace ((48 <=? 55 + d) && (55 + d <=? 57)) with false by lia. replace ((65 <=? 55 + d) && (55 + d <=? 70)) with true by lia. f_equal. lia. }
    rewrite !Hh by lia. f_equal. f_equal. lia.
Qed.
Lemma quote_decode bs : Forall (fun b => b < 256) bs -> percent_decode (flat_map quote_byte bs) = Some bs.
Proof.
  induction 1 as [|b bs Hb Hbs IH]; [reflexivity|]. cbn [flat_map]. rewrite quote_byte_decode by exact Hb. rewrite IH. reflexivity.
Qed.

Lemma escape_url_decodes v out : unicode v -> escape_url_value v = Some out ->
  exists bytes, percent_decode out = Some bytes /\ utf8_decode bytes = Some v.
Proof.
  intros Hu H. unfold escape_url_value in H. destruct v as [|c v]; [injection H as <-; exists []; split; reflexivity|].
  destruct (utf8_encode (c :: v)) as [bs|] eqn:E; [|discriminate]. injection H as <-.
  destruct (utf8_decode_encode _ Hu _ E) as [H1 H2]. exists bs. split; [apply quote_decode; exact H2|exact H1].
Qed.
Lemma escape_url_injective v w out : unicode v -> unicode w -> escape_url_value v = Some out -> escape_url_value w = Some out -> v = w.
Proof.
  intros Hv Hw H1 H2. destruct (escape_url_decodes v out Hv H1) as (b1 & P1 & D1). destruct (escape_url_decodes w out Hw H2) as (b2 & P2 & D2). congruence.
Qed.
Lemma escape_url_raises v : escape_url_value v = None <-> exists c, In c v /\ 55296 <= c < 57344.
Proof.
  unfold escape_url_value. destruct v as [|c v]; [split; [discriminate|intros (c & [] & _)]|].
  rewrite <- utf8_encode_total. destruct (utf8_encode (c :: v)); cbn [option_map]; split; intros E; first [discriminate E|reflexivity].
Qed.
(* letters, digits and  _ . - ~ / : @ ? & = # + %  *)
Definition url_alphabet (c : N) : bool := is_alnum_ascii c || mem c (u "_.-~/:@?&=#+%").
Lemma escape_url_alphabet v out : unicode v -> escape_url_value v = Some out -> forallb url_alphabet out = true.
Proof.
  intros Hu H. unfold escape_url_value in H. destruct v as [|c v]; [injection H as <-; reflexivity|].
  destruct (utf8_encode (c :: v)) as [bs|] eqn:E; [|discriminate]. injection H as <-.
  destruct (utf8_decode_encode _ Hu _ E) as [_ H2]. apply forallb_forall. intros x Hx. apply in_flat_map in Hx. destruct Hx as (b & Hb & Hx).
  rewrite Forall_forall in H2. specialize (H2 b Hb). unfold quote_byte in Hx. destruct (quote_safe b) eqn:Eb.
  - destruct Hx as [<-|[]]. apply quote_safe_class in Eb. unfold url_alphabet. destruct Eb as [Eb|Eb]; [rewrite Eb; reflexivity|].
    apply orb_true_intro. right. apply mem_In. vm_compute in Eb |- *. intuition.
  - assert (Hh : forall d, d < 16 -> url_alphabet (hex_upper d) = true).
    { intros d Hd. unfold url_alphabet, hex_upper, is_alnum_ascii, is_alpha_ascii, is_upper_ascii, is_digit_ascii, is_lower_ascii. destruct (d <? 10) eqn:Ed; lia. }
    destruct Hx as [<-|[<-|[<-|[]]]]; [reflexivity|apply Hh; lia|apply Hh; lia].
Qed.
Lemma url_alphabet_in v out : unicode v -> escape_url_value v = Some out ->
  forall c, In c out -> is_alnum_ascii c = true \/ In c (u "_.-~/:@?&=#+%").
Proof.
  intros Hu H c Hc. pose proof (escape_url_alphabet v out Hu H) as Ha. rewrite forallb_forall in Ha. specialize (Ha c Hc). unfold url_alphabet in Ha.
  apply orb_prop in Ha. destruct Ha as [Ha|Ha]; [left; exact Ha|right; apply mem_In; exact Ha].
Qed.
Lemma text_in_js q v out : escape_html_text_in_js_string v [q] = Some out ->
  exists html, js_eval q out = Some html /\ forall sc last rest, run sc O last Data (html ++ rest)%list = (chars v ++ run sc O last Data rest)%list.
Proof.
  unfold escape_html_text_in_js_string. intros H. exists (escape_text v). split; [apply js_string_eval; exact H|]. intros. rewrite escape_text_flat. apply run_data_esc.
Qed.
