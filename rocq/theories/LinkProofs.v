(* PROOFS about LinkModel *)
From Coq Require Import Lia ZifyBool ZifyN ZifyNat Permutation.
From Verif Require Import Str StrFacts EntitiesModel SerializerModel LinkModel LinkSpec.
Open Scope N_scope.

(* ---- lower-cased prefixes ---- *)
Definition plain_prefix (p : str) : bool := forallb (fun c => (c <? 128) && negb (c =? 107)) p && negb (match rev p with c :: _ => c =? 105 | [] => false end).
Lemma starts_lower_inv p s : plain_prefix p = true -> starts p (lower s) = true -> exists a t, s = a ++ t /\ List.length a = List.length p /\ alow a = p.
Proof.
  revert s. induction p as [|x p IH]; intros s OK H; [exists [], s; repeat split|].
  destruct s as [|c s]; [discriminate H|]. unfold plain_prefix in OK. cbn [forallb] in OK. apply andb_true_iff in OK. destruct OK as [OK1 OK2]. apply andb_true_iff in OK1. destruct OK1 as [OKx OKp].
  change (lower (c :: s)) with (lower_c c ++ lower s) in H.
  assert (OKp' : p <> [] -> plain_prefix p = true).
  { intros Np. unfold plain_prefix. rewrite OKp. cbn [rev] in OK2. destruct (rev p) as [|y r] eqn:R; [exfalso; apply Np; rewrite <- (rev_involutive p), R; reflexivity|]. cbn [app] in OK2. cbn [andb]. exact OK2. }
  assert (IH' : forall s0, starts p (lower s0) = true -> exists a t, s0 = a ++ t /\ List.length a = List.length p /\ alow a = p).
  { intros s0 H0. destruct p as [|y p]; [exists [], s0; repeat split|]. apply IH; [apply OKp'; discriminate|exact H0]. }
  destruct (N.ltb_spec c 128) as [L|L].
  - rewrite (lower_c_ascii c L) in H. cbn [app starts] in H. apply andb_true_iff in H. destruct H as [E H]. destruct (IH' s H) as (a & t & -> & La & Ea). exists (c :: a), t. cbn [app List.length alow map]. fold (alow a). rewrite Ea. repeat split; [lia|f_equal; lia].
  - destruct (N.eq_dec c 304) as [->|N1].
    + rewrite lower_c_dotted_I in H. cbn [app starts] in H. apply andb_true_iff in H. destruct H as [E H]. exfalso. destruct p as [|y p].
      * cbn [rev app] in OK2. lia.
      * cbn [starts] in H. cbn [forallb] in OKp. lia.
    + destruct (N.eq_dec c 8490) as [->|N2]; [rewrite lower_c_kelvin in H; cbn [app starts] in H; lia|].
      destruct (lower_c_nonascii c L N1 N2) as (d & Ed & Ld). rewrite Ed in H. cbn [app starts] in H. lia.
Qed.
Lemma starts_any_inv ps s : forallb plain_prefix ps = true -> starts_any ps (lower s) = true -> exists p a t, In p ps /\ s = a ++ t /\ List.length a = List.length p /\ alow a = p.
Proof.
  intros OK H. unfold starts_any in H. apply existsb_exists in H. destruct H as (p & I & H). rewrite forallb_forall in OK. destruct (starts_lower_inv p s (OK p I) H) as (a & t & Q). exists p, a, t. split; [exact I|exact Q].
Qed.
Lemma alow_ascii a p : alow a = p -> forallb (fun c => c <? 128) p = true -> forallb (fun c => c <? 128) a = true.
Proof.
  intros <-. unfold alow. induction a as [|c a IH]; [reflexivity|]. cbn [map forallb]. intros H. apply andb_true_iff in H. destruct H as [H1 H2]. rewrite (IH H2), andb_true_r. unfold alow_c, is_upper_ascii in H1. destruct ((65 <=? c) && (c <=? 90)) eqn:E; lia.
Qed.
Lemma starts_lower_app a t p : alow a = p -> forallb (fun c => c <? 128) p = true -> starts p (lower (a ++ t)) = true.
Proof.
  intros E A. rewrite lower_app. rewrite lower_ascii by (exact (alow_ascii a p E A)). rewrite E. apply starts_app.
Qed.

(* ---- offsets ---- *)
Lemma at_slice text s n : at_offset text (Nat.min s (List.length text)) (firstn n (skipn s text)).
Proof.
  exists (firstn s text), (skipn n (skipn s text)). split; [rewrite app_assoc, <- app_assoc, firstn_skipn, firstn_skipn; reflexivity|apply firstn_length].
Qed.
Lemma at_prefix text s x y : at_offset text s (x ++ y) -> at_offset text s x.
Proof. intros (a & b & -> & L). exists a, (y ++ b). rewrite <- app_assoc. split; [reflexivity|exact L]. Qed.
Lemma at_cons text s c x : at_offset text s (c :: x) -> at_offset text (S s) x.
Proof. intros (a & b & -> & L). exists (a ++ [c]), b. rewrite <- app_assoc. split; [reflexivity|]. rewrite app_length. cbn [List.length]. lia. Qed.
Lemma trim_quotes_suffix r : exists w, r = w ++ trim_quotes r.
Proof.
  induction r as [|q t IH]; [exists []; reflexivity|]. cbn [trim_quotes]. destruct (mem q (u """'") && Nat.odd (cnt q (q :: t))); [|exists []; reflexivity].
  destruct IH as [w IH]. exists (q :: w). cbn [app]. rewrite <- IH. reflexivity.
Qed.
Lemma trim_brackets_suffix r : exists w, r = w ++ trim_brackets r.
Proof.
  induction r as [|q t IH]; [exists []; reflexivity|]. cbn [trim_brackets]. destruct (opener q) as [o|]; [|exists []; reflexivity].
  destruct (cnt o (q :: t) <? cnt q (q :: t))%nat; [|exists []; reflexivity]. destruct IH as [w IH]. exists (q :: w). cbn [app]. rewrite <- IH. reflexivity.
Qed.
Lemma trim_prefix cand : exists w, cand = trim_trailing cand ++ w.
Proof.
  unfold trim_trailing. set (p := fun c => mem c (u ".,;:!?")). pose proof (drop_while_app p (rev cand)) as E.
  destruct (trim_quotes_suffix (drop_while p (rev cand))) as [w1 E1]. destruct (trim_brackets_suffix (trim_quotes (drop_while p (rev cand)))) as [w2 E2].
  exists (rev (take_while p (rev cand) ++ w1 ++ w2)). rewrite <- rev_app_distr, <- !app_assoc, <- E2, <- E1, <- E, rev_involutive. reflexivity.
Qed.
(* start, cand: a nonempty slice, at or after the span's start; what precedes it inside the span is a wrapper or a quote *)
Definition opening (c : N) : Prop := In c (u "<""'([{").
Lemma shape_spec text s raw start cand : at_offset text s raw -> shape text s raw = Some (start, cand) ->
  cand <> [] /\ at_offset text start cand /\ (start = s \/ exists c, opening c /\ at_offset text (start - 1) (c :: cand) /\ (s < start)%nat) /\ (start + List.length cand <= s + List.length raw)%nat.
Proof.
  intros A. unfold shape. destruct (strip_wrapping raw) as [stripped tr] eqn:W.
  assert (B : at_offset text (s + tr) stripped /\ (tr = O \/ tr = 1%nat /\ exists c, opening c /\ at_offset text s (c :: stripped)) /\ (tr + List.length stripped <= List.length raw)%nat).
  { unfold strip_wrapping in W. destruct raw as [|c t]; [injection W as <- <-; rewrite Nat.add_0_r; split; [exact A|split; [left; reflexivity|cbn; lia]]|].
    destruct (mem c (u "<""'([{") && mem (last (c :: t) 0) (u ">""')]}")) eqn:M; injection W as <- <-.
    - apply andb_true_iff in M. destruct M as [M _]. apply mem_In in M. assert (A2 : at_offset text s (c :: removelast t)).
      { destruct t as [|d t]; [exact A|]. apply at_prefix with (y := [last (d :: t) 0]). cbn [app]. rewrite <- app_removelast_last by discriminate. exact A. }
      assert (LL : (List.length (removelast t) <= List.length t)%nat) by (destruct t as [|d t]; [cbn; lia|rewrite (app_removelast_last 0 (l := d :: t)) at 2 by discriminate; rewrite app_length; lia]).
      replace (s + 1)%nat with (S s) by lia. split; [exact (at_cons _ _ _ _ A2)|]. split; [|cbn [List.length]; lia]. right. split; [reflexivity|]. exists c. split; [exact M|exact A2].
    - rewrite Nat.add_0_r. split; [exact A|split; [left; reflexivity|cbn; lia]]. }
  destruct B as (B1 & B2 & B3). clear W A.
  destruct (trim_trailing stripped) as [|c0 t0] eqn:T; [discriminate|]. destruct (trim_prefix stripped) as [w0 E0]. rewrite T in E0. remember (c0 :: t0) as cand0 eqn:C0.
  set (cand1 := if starts_any schemes (lower cand0) && contains (u ")[") cand0 then match find (u ")[") cand0 with Some k => trim_trailing (firstn k cand0) | None => cand0 end else cand0).
  assert (P : exists w, cand0 = cand1 ++ w).
  { unfold cand1. destruct (starts_any schemes (lower cand0) && contains (u ")[") cand0); [|exists []; symmetry; apply app_nil_r]. destruct (find (u ")[") cand0) as [k|]; [|exists []; symmetry; apply app_nil_r].
    destruct (trim_prefix (firstn k cand0)) as [w E]. exists (w ++ skipn k cand0). rewrite app_assoc, <- E. symmetry. apply firstn_skipn. }
  clearbody cand1. destruct P as [w1 E1]. destruct cand1 as [|c t]; [discriminate|].
  assert (E : stripped = (c :: t) ++ w1 ++ w0) by (rewrite E0, E1, <- app_assoc; reflexivity). clear E0 E1 C0 T.
  assert (Len : (List.length stripped = List.length (c :: t) + List.length (w1 ++ w0))%nat) by (rewrite E, app_length; reflexivity).
  assert (B1' : at_offset text (s + tr) (c :: t)) by (apply at_prefix with (y := w1 ++ w0); rewrite <- E; exact B1).
  destruct (mem c (u """'") && match char_at text (s + tr) with Some x => x =? c | None => false end) eqn:Q.
  - destruct t as [|d t]; [discriminate|]. intros H. injection H as <- <-. split; [discriminate|]. split; [exact (at_cons _ _ _ _ B1')|]. split; [|cbn [List.length] in *; lia].
    right. exists c. split; [|split; [|lia]]. 
    + apply andb_true_iff in Q. destruct Q as [Q _]. apply mem_In in Q. unfold opening. revert Q. vm_compute. intuition.
    + replace (S (s + tr) - 1)%nat with (s + tr)%nat by lia. exact B1'.
  - intros H. injection H as <- <-. split; [discriminate|]. split; [exact B1'|]. split; [|cbn [List.length] in *; lia].
    destruct B2 as [-> | (-> & x & Ox & Ax)]; [left; lia|]. right. exists x. split; [exact Ox|]. split; [|lia]. replace (s + 1 - 1)%nat with s by lia. apply at_prefix with (y := w1 ++ w0). cbn [app]. rewrite E in Ax. cbn [app] in Ax. exact Ax.
Qed.

(* ---- the schemes of an href ---- *)
Lemma safe_of p a rest : In p [u "http://"; u "https://"; u "ftp://"; u "mailto:"; u "//"] -> alow a = p -> safe_href (a ++ rest).
Proof. intros I E. exists p, a, rest. repeat split; assumption. Qed.
Lemma href_for_safe text : safe_href (fst (href_for text)).
Proof.
  unfold href_for. destruct (starts (u "mailto:") (lower text)) eqn:M.
  { destruct (starts_lower_inv (u "mailto:") text eq_refl M) as (a & t & -> & _ & E). apply (safe_of (u "mailto:")); [cbn [In]; tauto|exact E]. }
  destruct (mem 64 text && negb _); [apply (safe_of (u "mailto:")); [cbn [In]; tauto|reflexivity]|].
  destruct (starts_any [u "http://"; u "https://"; u "ftp://"; u "//"] (lower text)) eqn:S0.
  - destruct (starts_any_inv [u "http://"; u "https://"; u "ftp://"; u "//"] text eq_refl S0) as (p & a & t & I & -> & _ & E). apply (safe_of p); [cbn [In] in *; tauto|exact E].
  - apply (safe_of (u "http://")); [cbn [In]; tauto|reflexivity].
Qed.
Lemma punycode_safe idna h : safe_href h -> safe_href (punycode_href idna h).
Proof.
  intros S0. unfold punycode_href. destruct (starts (u "mailto:") (lower h)) eqn:M; [exact S0|].
  set (n := if starts (u "http://") (lower h) then 7%nat else if starts (u "https://") (lower h) then 8%nat else if starts (u "ftp://") (lower h) then 6%nat else if starts (u "//") (lower h) then 2%nat else O).
  assert (P : forall r, safe_href (firstn n h ++ r)).
  { intros r. unfold n. clear n.
    assert (G : forall p k, In p [u "http://"; u "https://"; u "ftp://"; u "mailto:"; u "//"] -> List.length p = k -> plain_prefix p = true -> starts p (lower h) = true -> safe_href (firstn k h ++ r)).
    { intros p k I K OK H. destruct (starts_lower_inv p h OK H) as (a & t & -> & La & Ea). rewrite firstn_app. replace (k - List.length a)%nat with O by lia. rewrite firstn_all2 by lia. cbn [firstn]. rewrite app_nil_r. exact (safe_of p a r I Ea). }
    destruct (starts (u "http://") (lower h)) eqn:E1; [apply (G (u "http://")); [cbn [In]; tauto|reflexivity|reflexivity|exact E1]|].
    destruct (starts (u "https://") (lower h)) eqn:E2; [apply (G (u "https://")); [cbn [In]; tauto|reflexivity|reflexivity|exact E2]|].
    destruct (starts (u "ftp://") (lower h)) eqn:E3; [apply (G (u "ftp://")); [cbn [In]; tauto|reflexivity|reflexivity|exact E3]|].
    destruct (starts (u "//") (lower h)) eqn:E4; [apply (G (u "//")); [cbn [In]; tauto|reflexivity|reflexivity|exact E4]|].
    exfalso. destruct S0 as (p & a & rest & I & -> & E). cbn [In] in I.
    destruct I as [<-|[<-|[<-|[<-|[<-|[]]]]]]; match goal with E : alow a = ?p |- _ => pose proof (starts_lower_app a rest p E eq_refl) as Q end; congruence. }
  destruct (match rsplit1 64 (host_of (skipn n h)) with Some (a, b) => (a, b) | None => ([], host_of (skipn n h)) end) as [ui hp].
  destruct (starts (u "[") hp); [exact S0|]. destruct (match split1 58 hp with Some (a, b) => (a, b) | None => (hp, []) end) as [ho po]. apply P.
Qed.

(* ---- one candidate ---- *)
Definition in_text (text : str) (l : link) : Prop :=
  at_offset text (l_start l) (l_text l) /\ l_text l <> [] /\ l_end l = (l_start l + List.length (l_text l))%nat /\ safe_href (l_href l).
Lemma skipn_all_min s (text : str) : skipn s text = skipn (Nat.min s (List.length text)) text.
Proof. destruct (Nat.le_ge_cases s (List.length text)) as [L|L]; [rewrite Nat.min_l by exact L; reflexivity|]. rewrite Nat.min_r by exact L. rewrite !skipn_all2 by lia. reflexivity. Qed.
Lemma one_candidate_ok idna cfg text s e l : (s <= List.length text)%nat -> one_candidate idna cfg text (s, e) = FLink l -> in_text text l /\
  exists start cand, shape text s (firstn (e - s) (skipn s text)) = Some (start, cand) /\ l_start l = start /\ l_text l = cand.
Proof.
  intros LS. unfold one_candidate. destruct (shape text s (firstn (e - s) (skipn s text))) as [[start cand]|] eqn:E; [|discriminate].
  assert (A : at_offset text s (firstn (e - s) (skipn s text))) by (pose proof (at_slice text s (e - s)) as A; rewrite Nat.min_l in A by exact LS; exact A).
  destruct (shape_spec text s _ start cand A E) as (N0 & B & _ & _). destruct (both _ _); try discriminate.
  pose proof (href_for_safe cand) as SF. destruct (href_for cand) as [href em]. cbn [fst] in SF. intros H. injection H as <-. unfold in_text. cbn [l_start l_end l_text l_href]. split; [repeat split|].
  - exact B.
  - exact N0.
  - apply punycode_safe. exact SF.
  - exists start, cand. repeat split.
Qed.
Lemma collect_ok idna cfg text spans ls : Forall (fun p => fst p <= List.length text)%nat spans -> collect idna cfg text spans = Some ls -> Forall (in_text text) ls.
Proof.
  revert ls. induction spans as [|[s e] t IH]; cbn [collect]; intros ls OK H; [injection H as <-; constructor|]. apply Forall_cons_iff in OK. destruct OK as [O1 O2]. cbn [fst] in O1.
  destruct (one_candidate idna cfg text (s, e)) as [| |l] eqn:E; [exact (IH _ O2 H)|discriminate H|].
  destruct (collect idna cfg text t) as [r|]; [|discriminate H]. injection H as <-. constructor; [exact (proj1 (one_candidate_ok _ _ _ _ _ _ O1 E))|exact (IH _ O2 eq_refl)].
Qed.
(* ---- sorting and filtering ---- *)
Lemma insert_perm x l : Permutation (insert x l) (x :: l).
Proof.
  induction l as [|y l IH]; [reflexivity|]. cbn [insert]. destruct (before y x || negb (before x y)); [|reflexivity]. rewrite IH. apply perm_swap.
Qed.
Lemma fold_insert_perm l : forall acc, Permutation (fold_left (fun a x => insert x a) l acc) (l ++ acc).
Proof.
  induction l as [|x l IH]; intros acc; [reflexivity|]. cbn [fold_left app]. rewrite IH, insert_perm. symmetry. apply Permutation_middle.
Qed.
Lemma sort_perm l : Permutation (sort l) l.
Proof. unfold sort. rewrite fold_insert_perm, app_nil_r. reflexivity. Qed.
Definition le_start (a b : link) : Prop := (l_start a <= l_start b)%nat.
Lemma insert_sorted x l : ForallOrdPairs le_start l -> ForallOrdPairs le_start (insert x l).
Proof.
  intros H. induction H as [|y l Hy H IH]; [repeat constructor|]. cbn [insert].
  destruct (before y x || negb (before x y)) eqn:B.
  - constructor; [|exact IH]. assert (LE : le_start y x) by (unfold before, le_start in *; lia). rewrite Forall_forall in *. intros z I. apply (Permutation_in _ (insert_perm x l)) in I. destruct I as [<-|I]; [exact LE|exact (Hy z I)].
  - constructor; [|constructor; assumption]. assert (LE : le_start x y) by (unfold before, le_start in *; lia). constructor; [exact LE|]. rewrite Forall_forall in *. intros z I. specialize (Hy z I). unfold le_start in *. lia.
Qed.
Lemma sort_sorted l : ForallOrdPairs le_start (sort l).
Proof.
  unfold sort. assert (G : forall acc, ForallOrdPairs le_start acc -> ForallOrdPairs le_start (fold_left (fun a x => insert x a) l acc)).
  { induction l as [|x l IH]; intros acc H; [exact H|]. cbn [fold_left]. apply IH. apply insert_sorted. exact H. }
  apply G. constructor.
Qed.
Definition apart (a b : link) : Prop := (l_end a <= l_start b)%nat.
Lemma keep_spec l : (forall x, In x l -> l_start x <= l_end x)%nat -> ForallOrdPairs le_start l -> forall last, incl (keep last l) l /\ ForallOrdPairs apart (keep last l) /\ (forall e x, last = Some e -> In x (keep last l) -> (e <= l_start x)%nat).
Proof.
  intros W H. induction H as [|y l Hy H IH]; intros last; [repeat split; [intros x []|constructor|intros e x _ []]|]. assert (W' : forall x, In x l -> (l_start x <= l_end x)%nat) by (intros x I; apply W; right; exact I). specialize (IH W').
  cbn [keep]. destruct (match last with Some e => (l_start y <? e)%nat | None => false end) eqn:B.
  - destruct (IH last) as (A1 & A2 & A3). repeat split; [intros x I; right; exact (A1 x I)|exact A2|exact A3].
  - destruct (IH (Some (l_end y))) as (A1 & A2 & A3). repeat split.
    + intros x [<-|I]; [left; reflexivity|right; exact (A1 x I)].
    + constructor; [|exact A2]. rewrite Forall_forall. intros z I. exact (A3 _ _ eq_refl I).
    + intros e x -> [<-|I]; [lia|]. pose proof (A3 _ _ eq_refl I). pose proof (W y (or_introl eq_refl)). lia.
Qed.
(* nothing is dropped without reason: a dropped link overlaps a kept one that starts no later *)
Lemma keep_complete l : (forall x, In x l -> l_start x < l_end x)%nat -> ForallOrdPairs le_start l -> forall last x, In x l -> In x (keep last l) \/ (exists e, last = Some e /\ (l_start x < e)%nat) \/ exists y, In y (keep last l) /\ le_start y x /\ (l_start x < l_end y)%nat.
Proof.
  intros W H. induction H as [|y l Hy H IH]; intros last x I; [destruct I|]. assert (W' : forall x, In x l -> (l_start x < l_end x)%nat) by (intros z Iz; apply W; right; exact Iz). specialize (IH W').
  cbn [keep]. destruct (match last with Some e => (l_start y <? e)%nat | None => false end) eqn:B.
  - destruct I as [<-|I]; [right; left; destruct last as [e|]; [exists e; split; [reflexivity|lia]|discriminate B]|]. exact (IH last x I).
  - destruct I as [<-|I]; [left; left; reflexivity|]. destruct (IH (Some (l_end y)) x I) as [K|[(e & Q & K)|(z & K1 & K2)]].
    + left. right. exact K.
    + right. right. exists y. injection Q as <-. split; [left; reflexivity|]. split; [rewrite Forall_forall in Hy; exact (Hy x I)|exact K].
    + right. right. exists z. split; [right; exact K1|exact K2].
Qed.
Definition spans_ok (cands : str -> list (nat * nat)) : Prop := forall text, Forall (fun p => fst p <= List.length text)%nat (cands text).
Lemma in_text_width text l : in_text text l -> (l_start l < l_end l)%nat.
Proof. intros (_ & N0 & -> & _). destruct (l_text l); [contradiction|]. cbn [List.length]. lia. Qed.
Lemma find_links_ok idna cands cfg text ms : spans_ok cands -> find_links_by idna cands cfg text = Some ms -> Forall (in_text text) ms /\ ForallOrdPairs apart ms.
Proof.
  intros OK. unfold find_links_by. destruct text as [|c t]; [intros H; injection H as <-; split; constructor|]. remember (c :: t) as text eqn:Et. clear Et c t.
  destruct (collect idna cfg text (cands text)) as [ls|] eqn:C; [|discriminate]. cbn [option_map]. intros H. injection H as <-. pose proof (collect_ok _ _ _ _ _ (OK text) C) as A.
  assert (A' : Forall (in_text text) (sort ls)) by (rewrite Forall_forall in *; intros x I; apply A; exact (Permutation_in _ (sort_perm ls) I)).
  assert (W : forall x, In x (sort ls) -> (l_start x <= l_end x)%nat) by (intros x I; rewrite Forall_forall in A'; pose proof (in_text_width _ _ (A' x I)); lia).
  destruct (keep_spec (sort ls) W (sort_sorted ls) None) as (K1 & K2 & _). split; [|exact K2]. rewrite Forall_forall in *. intros x I. exact (A' x (K1 x I)).
Qed.

(* ---- no exception ---- *)
Definition odd_digit (c : N) : bool := is_digit c && negb (is_decimal c).
Lemma decimal_value l c : in_ranges l c = true -> exists d, decimal_digit_value_in l c = Some d.
Proof.
  induction l as [|[lo hi] l IH]; cbn [in_ranges existsb decimal_digit_value_in fst snd]; [discriminate|]. destruct ((lo <=? c) && (c <=? hi)); [intros _; eexists; reflexivity|]. exact IH.
Qed.
Lemma py_int_decimal s : forall acc, forallb is_decimal s = true -> exists v, py_int false acc s = Some v.
Proof.
  induction s as [|c s IH]; intros acc H; [exists acc; reflexivity|]. cbn [forallb] in H. apply andb_true_iff in H. destruct H as [H1 H2]. cbn [py_int]. unfold py_digit. destruct (decimal_value _ _ H1) as [d ->]. apply IH. exact H2.
Qed.
Lemma octets_total l : (forall p, In p l -> forall c, In c p -> odd_digit c = false) -> octets l <> None.
Proof.
  induction l as [|p l IH]; intros H; [discriminate|]. cbn [octets]. destruct p as [|c p]; [discriminate|]. remember (c :: p) as q. destruct (3 <? List.length q)%nat; [discriminate|]. destruct (negb (str_isdigit q)) eqn:D; [discriminate|].
  destruct (py_int_decimal q 0) as [v ->].
  - apply forallb_forall. intros x I. specialize (H q (or_introl eq_refl) x I). apply negb_false_iff in D. unfold str_isdigit in D. rewrite Heqq in D. rewrite <- Heqq in D. rewrite forallb_forall in D. specialize (D x I). unfold odd_digit in H. rewrite D in H. apply negb_false_iff. exact H.
  - destruct (255 <? v); [discriminate|]. apply IH. intros p' I. apply H. right. exact I.
Qed.
Lemma split_char_In c s p : In p (split_char c s) -> incl p s.
Proof.
  revert p. induction s as [|x s IH]; cbn [split_char]; intros p I; [destruct I as [<-|[]]; apply incl_refl|]. destruct (x =? c).
  - destruct I as [<-|I]; [intros y []|]. apply incl_tl. exact (IH p I).
  - destruct (split_char c s) as [|w ws].
    + destruct I as [<-|[]]. intros y [<-|[]]. left. reflexivity.
    + destruct I as [<-|I]; [|apply incl_tl; apply IH; right; exact I]. intros y [<-|Iy]; [left; reflexivity|]. right. exact (IH w (or_introl eq_refl) y Iy).
Qed.
Lemma valid_ipv4_total h : (forall c, In c h -> odd_digit c = false) -> valid_ipv4 h <> None.
Proof.
  intros H. unfold valid_ipv4. destruct (negb _); [discriminate|]. apply octets_total. intros p I c Ic. apply H. exact (split_char_In _ _ _ I c Ic).
Qed.
Lemma take_while_incl p (s : str) : incl (take_while p s) s.
Proof. intros c I. rewrite (drop_while_app p s). apply in_or_app. left. exact I. Qed.
Lemma skipn_incl n (s : str) : incl (skipn n s) s.
Proof. intros c I. rewrite <- (firstn_skipn n s). apply in_or_app. right. exact I. Qed.
Lemma firstn_incl n (s : str) : incl (firstn n s) s.
Proof. intros c I. rewrite <- (firstn_skipn n s). apply in_or_app. left. exact I. Qed.
Lemma rsplit1_spec c s a b : rsplit1 c s = Some (a, b) -> s = a ++ c :: b /\ ~ In c b.
Proof.
  revert a b. induction s as [|x s IH]; cbn [rsplit1]; intros a b H; [discriminate H|]. destruct (rsplit1 c s) as [[a' b']|] eqn:E.
  - injection H as <- <-. destruct (IH _ _ eq_refl) as [-> Q]. split; [reflexivity|exact Q].
  - destruct (N.eqb_spec x c) as [->|]; [|discriminate H]. injection H as <- <-. split; [reflexivity|]. clear IH. induction s as [|y s IHs]; [intros []|]. cbn [rsplit1] in E. destruct (rsplit1 c s) as [[? ?]|]; [discriminate E|]. destruct (N.eqb_spec y c); [discriminate E|]. intros [Q|Q]; [contradiction|exact (IHs eq_refl Q)].
Qed.
Lemma split1_spec c s a b : split1 c s = Some (a, b) -> s = a ++ c :: b.
Proof.
  unfold split1. destruct (find_char c s) as [k|] eqn:E; [|discriminate]. intros H. injection H as <- <-. revert k E. induction s as [|x s IH]; cbn [find_char]; intros k E; [discriminate E|]. destruct (N.eqb_spec x c) as [->|].
  - injection E as <-. reflexivity.
  - destruct (find_char c s) as [j|]; [|discriminate E]. injection E as <-. cbn [firstn app]. f_equal. exact (IH j eq_refl).
Qed.
Lemma both_raise a b : both a b = VRaise -> a = VRaise \/ b = VRaise.
Proof. destruct a; cbn [both]; auto; discriminate. Qed.
Lemma skip_if_raise b : skip_if b <> VRaise.
Proof. destruct b; discriminate. Qed.
Lemma scheme_has_sep cand : starts_any schemes (lower cand) = true -> find (u "://") cand <> None.
Proof.
  intros H. destruct (starts_any_inv schemes cand eq_refl H) as (p & a & t & I & -> & L & E). intros F. rewrite find_None in F.
  assert (G : exists b, a = b ++ u "://").
  { unfold schemes in I. cbn [In] in I. destruct I as [<-|[<-|[<-|[]]]]; cbn in L.
    all: repeat (destruct a as [|? a]; [discriminate L|]; cbn [List.length] in L; apply Nat.succ_inj in L); destruct a; [|discriminate L]; cbn [alow map] in E; injection E as; 
      match goal with |- exists b, [?x1; ?x2; ?x3; ?x4; ?x5; ?x6; ?x7; ?x8] = _ => exists [x1; x2; x3; x4; x5] | |- exists b, [?x1; ?x2; ?x3; ?x4; ?x5; ?x6; ?x7] = _ => exists [x1; x2; x3; x4] | |- exists b, [?x1; ?x2; ?x3; ?x4; ?x5; ?x6] = _ => exists [x1; x2; x3] end;
      unfold alow_c, is_upper_ascii in *; cbn [app]; repeat f_equal; repeat match goal with H : context[if ?b then _ else _] |- _ => destruct b eqn:?; [lia|] end; change (u "://") with [58; 47; 47]; congruence. }
  destruct G as [b ->]. apply (F b t). rewrite <- app_assoc. reflexivity.
Qed.
