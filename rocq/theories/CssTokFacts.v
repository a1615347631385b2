(* Facts about the CSS tokenizer of CssSpec.v on inputs without backslashes. *)
From Coq Require Import Lia ZifyBool ZifyN ZifyNat Wf_nat.
From Verif Require Import Str StrFacts ListFacts CssSpec.
Open Scope N_scope.

Definition suffix (r s : str) : Prop := exists x, s = (x ++ r)%list.
Lemma suffix_refl s : suffix s s. Proof. exists []; reflexivity. Qed.
Lemma suffix_cons c t r : suffix r t -> suffix r (c :: t).
Proof. intros [x ->]. exists (c :: x); reflexivity. Qed.
Lemma suffix_trans a b c : suffix a b -> suffix b c -> suffix a c.
Proof. intros [x ->] [y ->]. exists (y ++ x)%list. rewrite app_assoc; reflexivity. Qed.
Lemma suffix_skipn n s : suffix (skipn n s) s.
Proof. exists (firstn n s). symmetry; apply firstn_skipn. Qed.
Lemma suffix_nil s : suffix [] s. Proof. exists s. symmetry; apply app_nil_r. Qed.
Lemma suffix_drop p s : suffix (drop_while p s) s.
Proof. exists (take_while p s). apply drop_while_app. Qed.
Lemma suffix_tl s : suffix (tl s) s.
Proof. destruct s; [apply suffix_refl|apply suffix_cons, suffix_refl]. Qed.
Lemma suffix_len r s : suffix r s -> (List.length r <= List.length s)%nat.
Proof. intros [x ->]. rewrite app_length. lia. Qed.
Lemma suffix_In r s c : suffix r s -> ~ In c s -> ~ In c r.
Proof. intros [x ->] H1 H2. apply H1, in_or_app; right; exact H2. Qed.
#[export] Hint Resolve suffix_refl suffix_cons suffix_nil suffix_drop suffix_tl suffix_skipn : suf.

Lemma no_escape s : ~ In 92 s -> valid_escape s = false.
Proof.
  intros H. destruct s as [|a [|b t]]; cbn; [reflexivity| |].
  - apply N.eqb_neq. intros ->; apply H; left; reflexivity.
  - apply andb_false_iff; left. apply N.eqb_neq. intros ->; apply H; left; reflexivity.
Qed.

Lemma consume_ident_plain k : forall s, ~ In 92 s -> (List.length s < k)%nat -> consume_ident k s = (take_while ident_char s, drop_while ident_char s).
Proof.
  induction k as [|k IH]; intros s Hs Hk; [lia|]. cbn [consume_ident]. destruct s as [|c t]; [reflexivity|].
  cbn [take_while drop_while]. destruct (ident_char c) eqn:E.
  - rewrite IH; [reflexivity| |cbn in Hk; lia]. intros H; apply Hs; right; exact H.
  - rewrite no_escape by exact Hs. reflexivity.
Qed.
Lemma ident_seq_plain s : ~ In 92 s -> ident_seq s = (take_while ident_char s, drop_while ident_char s).
Proof. intros H. apply consume_ident_plain; [exact H|lia]. Qed.

(* strings *)
Lemma consume_string_suffix k q : forall s, ~ In 92 s -> suffix (snd (consume_string k q s)) s.
Proof.
  induction k as [|k IH]; intros s Hs; cbn [consume_string]; [apply suffix_refl|]. destruct s as [|c t]; [apply suffix_refl|].
  destruct (c =? q); [cbn; auto with suf|]. destruct (css_newline c); [apply suffix_refl|].
  destruct (N.eqb_spec c 92) as [->|Hc]; [exfalso; apply Hs; left; reflexivity|].
  assert (Ht : ~ In 92 t) by (intros H; apply Hs; right; exact H). specialize (IH t Ht).
  destruct (consume_string k q t) as [tk r]. destruct tk; cbn in *; auto with suf.
Qed.
Lemma consume_string_kind k q : forall s, ~ In 92 s -> match fst (consume_string k q s) with CStr _ | CBadStr => True | _ => False end.
Proof.
  induction k as [|k IH]; intros s Hs; cbn [consume_string]; [exact I|]. destruct s as [|c t]; [exact I|].
  destruct (c =? q); [exact I|]. destruct (css_newline c); [exact I|].
  destruct (N.eqb_spec c 92) as [->|Hc]; [exfalso; apply Hs; left; reflexivity|].
  assert (Ht : ~ In 92 t) by (intros H; apply Hs; right; exact H). specialize (IH t Ht).
  destruct (consume_string k q t) as [tk r]. destruct tk; cbn in *; auto.
Qed.
Lemma consume_string_ok q s r k : ~ In q s -> ~ In 92 s -> forallb (fun c => negb (css_newline c)) s = true -> (List.length s < k)%nat ->
  consume_string k q (s ++ q :: r)%list = (CStr s, r).
Proof.
  revert k. induction s as [|c s IH]; intros k Hq Hb Hn Hk; (destruct k as [|k]; [cbn in Hk; lia|]).
  - cbn [app consume_string]. rewrite N.eqb_refl. reflexivity.
  - cbn [forallb] in Hn. apply andb_prop in Hn. destruct Hn as [Hc Hn]. cbn [app consume_string].
    destruct (N.eqb_spec c q) as [->|_]; [exfalso; apply Hq; left; reflexivity|].
    apply negb_true_iff in Hc. rewrite Hc.
    destruct (N.eqb_spec c 92) as [->|_]; [exfalso; apply Hb; left; reflexivity|].
    rewrite IH; [reflexivity| | |exact Hn|cbn in Hk; lia]; intros H; [apply Hq|apply Hb]; right; exact H.
Qed.

(* url tokens *)
Lemma bad_url_suffix k : forall s, ~ In 92 s -> suffix (bad_url_remnants k s) s.
Proof.
  induction k as [|k IH]; intros s Hs; cbn [bad_url_remnants]; [apply suffix_refl|]. destruct s as [|c t]; [apply suffix_refl|].
  destruct (c =? 41); [auto with suf|]. rewrite no_escape by exact Hs. apply suffix_cons, IH. intros H; apply Hs; right; exact H.
Qed.
Lemma url_body_suffix k : forall s, ~ In 92 s -> suffix (snd (url_body k s)) s /\ match fst (url_body k s) with CUrl _ | CBadUrl => True | _ => False end.
Proof.
  induction k as [|k IH]; intros s Hs; [split; [apply suffix_refl|exact I]|].
  assert (Hbad : suffix (snd (CBadUrl, bad_url_remnants (S k) s)) s) by (apply bad_url_suffix; exact Hs).
  cbn [url_body]. destruct s as [|c t]; [split; [apply suffix_refl|exact I]|].
  destruct (c =? 41); [split; [cbn; auto with suf|exact I]|].
  destruct (css_ws c).
  { destruct (drop_while css_ws t) as [|d t'] eqn:E; [split; [apply suffix_nil|exact I]|].
    destruct (d =? 41); [|split; [exact Hbad|exact I]]. split; [|exact I]. cbn.
    apply suffix_cons. apply (suffix_trans _ (d :: t')); [auto with suf|]. rewrite <- E. apply suffix_drop. }
  destruct (_ || _); [split; [exact Hbad|exact I]|].
  destruct (N.eqb_spec c 92) as [->|_]; [exfalso; apply Hs; left; reflexivity|].
  assert (Ht : ~ In 92 t) by (intros H; apply Hs; right; exact H). destruct (IH t Ht) as [H1 H2].
  destruct (url_body k t) as [tk r]; destruct tk; cbn in *; try contradiction; auto with suf.
Qed.

(* ident-like *)
Definition is_url_tok (t : ctok) : Prop := match t with CUrl _ | CBadUrl => True | _ => False end.
Lemma take_drop_ident s : s = (take_while ident_char s ++ drop_while ident_char s)%list.
Proof. apply drop_while_app. Qed.
Lemma ident_like_cases s tk r : ~ In 92 s -> ident_like s = (tk, r) ->
  (tk = CIdent (take_while ident_char s) /\ r = drop_while ident_char s /\ (forall t, r <> 40 :: t)) \/
  (exists n, tk = CFun n /\ s = (n ++ 40 :: r)%list /\ n = take_while ident_char s /\
     (alow n = u "url" -> quote_next (drop_while css_ws r) = true)) \/
  (exists n t, is_url_tok tk /\ s = (n ++ 40 :: t)%list /\ n = take_while ident_char s /\ alow n = u "url" /\
     quote_next (drop_while css_ws t) = false /\ suffix r t).
Proof.
  intros Hs. unfold ident_like. rewrite ident_seq_plain by exact Hs. pose proof (take_drop_ident s) as Es.
  destruct (drop_while ident_char s) as [|c t] eqn:E.
  - intros H; assert (tk = CIdent (take_while ident_char s) /\ r = []) by (split; congruence). left. destruct H0; repeat split; auto. intros t; congruence.
  - destruct (N.eqb_spec c 40) as [->|Hc].
    + destruct (str_eqb (alow (take_while ident_char s)) (u "url")) eqn:Eu; cbn [andb].
      * apply str_eqb_eq in Eu. destruct (quote_next (drop_while css_ws t)) eqn:Eq; cbn [negb].
        -- intros H. right; left. exists (take_while ident_char s). assert (r = t) by congruence. subst r. repeat split; try congruence.
        -- intros H. right; right. exists (take_while ident_char s), t. unfold consume_url in H.
           assert (Ht : ~ In 92 (drop_while css_ws t)).
           { apply (suffix_In _ s); [|exact Hs]. apply (suffix_trans _ t); [apply suffix_drop|]. apply (suffix_trans _ (40 :: t)); [auto with suf|]. rewrite <- E. apply suffix_drop. }
           destruct (url_body_suffix (S (List.length t)) _ Ht) as [H1 H2]. rewrite H in H1, H2. cbn in H1, H2.
           repeat split; auto. apply (suffix_trans _ _ _ H1). apply suffix_drop.
      * intros H. right; left. exists (take_while ident_char s). assert (r = t) by congruence. subst r. repeat split; try congruence.
        intros Hu. apply str_eqb_neq in Eu. contradiction.
    + intros H. left. assert (tk = CIdent (take_while ident_char s) /\ r = c :: t) by (split; congruence). destruct H0; repeat split; auto. intros t'; congruence.
Qed.

(* numbers *)
Definition numeric_char (c : N) : bool := is_digit_ascii c || (c =? 43) || (c =? 45) || (c =? 46) || (c =? 69) || (c =? 101).
(* [r] is [s] without a prefix of characters satisfying [p] *)
Definition after (p : N -> bool) (r s : str) : Prop := exists x, s = (x ++ r)%list /\ forallb p x = true.
Lemma after_refl p s : after p s s. Proof. exists []; split; reflexivity. Qed.
Lemma after_cons p c t r : p c = true -> after p r t -> after p r (c :: t).
Proof. intros Hc (x & -> & H). exists (c :: x). split; [reflexivity|]. cbn [forallb]. rewrite Hc, H; reflexivity. Qed.
Lemma after_trans p a b c : after p a b -> after p b c -> after p a c.
Proof. intros (x & -> & H1) (y & -> & H2). exists (y ++ x)%list. rewrite app_assoc, forallb_app, H1, H2. split; reflexivity. Qed.
Lemma forallb_impl {A} (p q : A -> bool) l : (forall c, p c = true -> q c = true) -> forallb p l = true -> forallb q l = true.
Proof. intros H; induction l as [|c l IH]; cbn [forallb]; [auto|]. intros E; apply andb_prop in E; destruct E as [E1 E2]. rewrite (H c E1); exact (IH E2). Qed.
Lemma after_weak (p q : N -> bool) r s : (forall c, p c = true -> q c = true) -> after p r s -> after q r s.
Proof. intros H (x & E & F). exists x; split; [exact E|]. exact (forallb_impl _ _ _ H F). Qed.
Lemma after_drop (p q : N -> bool) s : (forall c, p c = true -> q c = true) -> after q (drop_while p s) s.
Proof. intros H. apply (after_weak p q); [exact H|]. exists (take_while p s). split; [apply drop_while_app|apply take_while_all]. Qed.
Lemma after_suffix p r s : after p r s -> suffix r s.
Proof. intros (x & -> & _). exists x; reflexivity. Qed.
Lemma digit_numeric c : is_digit_ascii c = true -> numeric_char c = true.
Proof. unfold numeric_char; intros ->; reflexivity. Qed.
Lemma skip_exponent_after s : after numeric_char (skip_exponent s) s.
Proof.
  unfold skip_exponent. destruct s as [|c t]; [apply after_refl|].
  destruct ((c =? 69) || (c =? 101)) eqn:E; [|apply after_refl].
  assert (Hc : numeric_char c = true) by (unfold numeric_char; apply orb_true_iff in E; destruct E as [-> | ->]; rewrite ?orb_true_r; reflexivity).
  destruct (digit_first t); [apply after_cons; [exact Hc|]; apply after_drop, digit_numeric|].
  destruct t as [|d t']; [apply after_refl|]. destruct ((d =? 43) || (d =? 45)) eqn:Ed; cbn [andb]; [|apply after_refl].
  destruct (digit_first t'); [|apply after_refl]. apply after_cons; [exact Hc|]. apply after_cons; [|apply after_drop, digit_numeric].
  unfold numeric_char. apply orb_true_iff in Ed; destruct Ed as [-> | ->]; rewrite ?orb_true_r; reflexivity.
Qed.
Lemma skip_number_after s : after numeric_char (skip_number s) s.
Proof.
  unfold skip_number. apply (after_trans _ _ _ _ (skip_exponent_after _)).
  set (s1 := match s with [] => s | c :: t => if (c =? 43) || (c =? 45) then t else s end).
  assert (H1 : after numeric_char s1 s).
  { unfold s1. destruct s as [|c t]; [apply after_refl|]. destruct ((c =? 43) || (c =? 45)) eqn:E; [|apply after_refl].
    apply after_cons; [|apply after_refl]. unfold numeric_char. apply orb_true_iff in E; destruct E as [-> | ->]; rewrite ?orb_true_r; reflexivity. }
  apply (after_trans _ _ s1); [|exact H1]. assert (H2 : after numeric_char (skip_digits s1) s1) by apply after_drop, digit_numeric.
  destruct (dot_digit (skip_digits s1)) eqn:E; [|exact H2].
  apply (after_trans _ _ (skip_digits s1)); [|exact H2]. destruct (skip_digits s1) as [|c t]; [discriminate E|].
  cbn [dot_digit] in E. apply andb_prop in E. destruct E as [E _]. apply after_cons; [unfold numeric_char; rewrite E; rewrite ?orb_true_r; reflexivity|].
  cbn [tl]. apply after_drop, digit_numeric.
Qed.
Definition wordish (c : N) : bool := ident_char c || numeric_char c || (c =? 37) || (c =? 35) || (c =? 64).
Lemma numeric_after s tk r : ~ In 92 s -> numeric s = (tk, r) ->
  after wordish r s /\ match tk with CDim _ | CPercent | CNum => True | _ => False end.
Proof.
  intros Hs. unfold numeric. pose proof (skip_number_after s) as H1.
  assert (H1' : after wordish (skip_number s) s) by (apply (after_weak numeric_char); [unfold wordish; intros c ->; rewrite ?orb_true_r; reflexivity|exact H1]).
  assert (Hr : ~ In 92 (skip_number s)) by (apply (suffix_In _ s); [exact (after_suffix _ _ _ H1)|exact Hs]).
  rewrite ident_seq_plain by exact Hr. destruct (would_start_ident (skip_number s)).
  - intros H. assert (tk = CDim (take_while ident_char (skip_number s)) /\ r = drop_while ident_char (skip_number s)) as [-> ->] by (split; congruence).
    split; [|exact I]. apply (after_trans _ _ (skip_number s)); [|exact H1']. apply after_drop. unfold wordish; intros c ->; reflexivity.
  - destruct (skip_number s) as [|c t]; [intros H; assert (tk = CNum /\ r = []) as [-> ->] by (split; congruence); split; [exact H1'|exact I]|].
    destruct (c =? 37) eqn:E; intros H.
    + assert (tk = CPercent /\ r = t) as [-> ->] by (split; congruence). split; [|exact I].
      apply (after_trans _ _ (c :: t)); [|exact H1']. apply after_cons; [unfold wordish; rewrite E, ?orb_true_r; reflexivity|apply after_refl].
    + assert (tk = CNum /\ r = c :: t) as [-> ->] by (split; congruence). split; [exact H1'|exact I].
Qed.

(* one token *)
Inductive step (c : N) (t : str) : option ctok -> str -> Prop :=
| StComment : starts (u "/*") (c :: t) = true -> step c t None (after_comment (tl t))
| StWs : css_ws c = true -> step c t (Some CWs) (drop_while css_ws t)
| StStr tk r : c = 34 \/ c = 39 -> consume_string (S (List.length t)) c t = (tk, r) -> step c t (Some tk) r
| StIdent : would_start_ident (c :: t) = true -> (forall t', drop_while ident_char (c :: t) <> 40 :: t') ->
    step c t (Some (CIdent (take_while ident_char (c :: t)))) (drop_while ident_char (c :: t))
| StFun n r : would_start_ident (c :: t) = true -> c :: t = (n ++ 40 :: r)%list -> n = take_while ident_char (c :: t) ->
    (alow n = u "url" -> quote_next (drop_while css_ws r) = true) -> step c t (Some (CFun n)) r
| StUrl tk n t' r : is_url_tok tk -> c :: t = (n ++ 40 :: t')%list -> n = take_while ident_char (c :: t) -> alow n = u "url" ->
    quote_next (drop_while css_ws t') = false -> suffix r t' -> step c t (Some tk) r
| StHash : c = 35 -> step c t (Some (CHash (take_while ident_char t))) (drop_while ident_char t)
| StAt : c = 64 -> step c t (Some (CAt (take_while ident_char t))) (drop_while ident_char t)
| StNum tk r : after wordish r (c :: t) -> r <> c :: t -> match tk with CDim _ | CPercent | CNum => True | _ => False end -> step c t (Some tk) r
| StColon : c = 58 -> step c t (Some CColon) t
| StSemi : c = 59 -> step c t (Some CSemi) t
| StCdc : starts (u "-->") (c :: t) = true -> step c t (Some CCdc) (skipn 2 t)
| StCdo : starts (u "<!--") (c :: t) = true -> step c t (Some CCdo) (skipn 3 t)
| StDelim : starts (u "/*") (c :: t) = false -> step c t (Some (CDelim c)) t.

Lemma skip_number_moves s : would_start_number s = true -> skip_number s <> s.
Proof.
  intros H E. assert (List.length (skip_number s) < List.length s)%nat; [|rewrite E in H0; lia]. clear E.
  unfold skip_number. destruct s as [|c t]; [discriminate H|]. cbn [would_start_number] in H.
  set (s1 := if (c =? 43) || (c =? 45) then t else c :: t).
  assert (Hd : digit_first s1 || dot_digit s1 = true) by (unfold s1; destruct ((c =? 43) || (c =? 45)); exact H).
  assert (H1 : (List.length s1 <= S (List.length t))%nat) by (unfold s1; destruct (_ || _); cbn; lia).
  apply Nat.le_lt_trans with (List.length (if dot_digit (skip_digits s1) then skip_digits (tl (skip_digits s1)) else skip_digits s1)).
  { apply suffix_len. apply (after_suffix _ _ _ (skip_exponent_after _)). }
  apply Nat.lt_le_trans with (List.length s1); [|cbn; exact H1]. clearbody s1. clear -Hd.
  pose proof (suffix_len _ _ (suffix_drop is_digit_ascii s1)) as L1.
  destruct (digit_first s1) eqn:E.
  - assert (List.length (skip_digits s1) < List.length s1)%nat.
    { destruct s1 as [|d s1]; [discriminate E|]. cbn [digit_first] in E. unfold skip_digits. cbn [drop_while]. rewrite E. cbn.
      pose proof (suffix_len _ _ (suffix_drop is_digit_ascii s1)). lia. }
    destruct (dot_digit (skip_digits s1)); [|exact H].
    pose proof (suffix_len _ _ (suffix_drop is_digit_ascii (tl (skip_digits s1)))). pose proof (suffix_len _ _ (suffix_tl (skip_digits s1))). unfold skip_digits in *; lia.
  - cbn [orb] in Hd. assert (Hs : skip_digits s1 = s1).
    { destruct s1 as [|d s1]; [reflexivity|]. cbn [digit_first] in E. unfold skip_digits; cbn [drop_while]. rewrite E; reflexivity. }
    rewrite Hs, Hd. destruct s1 as [|d s1]; [discriminate Hd|]. cbn [tl]. pose proof (suffix_len _ _ (suffix_drop is_digit_ascii s1)). unfold skip_digits. cbn [List.length]; lia.
Qed.
Lemma numeric_moves s tk r : ~ In 92 s -> would_start_number s = true -> numeric s = (tk, r) -> r <> s.
Proof.
  intros Hs Hw H E. pose proof (skip_number_moves s Hw) as Hn. pose proof (skip_number_after s) as Ha.
  assert (Hl : (List.length (skip_number s) < List.length s)%nat).
  { destruct Ha as (x & Ex & _). destruct x as [|c x]; [exfalso; apply Hn; symmetry; exact Ex|].
    apply (f_equal (@List.length N)) in Ex. rewrite app_length in Ex. cbn [List.length] in Ex. lia. }
  assert (Hr : ~ In 92 (skip_number s)) by (apply (suffix_In _ s); [exact (after_suffix _ _ _ Ha)|exact Hs]).
  unfold numeric in H. rewrite ident_seq_plain in H by exact Hr.
  assert (suffix r (skip_number s)).
  { destruct (would_start_ident (skip_number s)); [assert (r = drop_while ident_char (skip_number s)) as -> by congruence; apply suffix_drop|].
    destruct (skip_number s) as [|c t]; [assert (r = []) as -> by congruence; apply suffix_nil|].
    destruct (c =? 37); [assert (r = t) as -> by congruence; auto with suf|assert (r = c :: t) as -> by congruence; apply suffix_refl]. }
  apply suffix_len in H0. rewrite E in H0. lia.
Qed.

Lemma would_start_first c t : ~ In 92 (c :: t) -> would_start_ident (c :: t) = true -> ident_char c = true.
Proof.
  intros Hs. unfold would_start_ident. destruct (N.eqb_spec c 45) as [->|Hc]; [reflexivity|].
  rewrite no_escape by exact Hs. rewrite orb_false_r. unfold ident_char. intros ->; reflexivity.
Qed.
Lemma consume_token_step c t o r : ~ In 92 (c :: t) -> consume_token c t = (o, r) -> step c t o r.
Proof.
  intros Hs. assert (Ht : ~ In 92 t) by (intros H; apply Hs; right; exact H). unfold consume_token.
  assert (IL : would_start_ident (c :: t) = true -> forall o r, (Some (fst (ident_like (c :: t))), snd (ident_like (c :: t))) = (o, r) -> step c t o r).
  { intros Hw o' r' H. destruct (ident_like (c :: t)) as [tk r0] eqn:E. cbn in H. assert (o' = Some tk /\ r' = r0) as [-> ->] by (split; congruence).
    destruct (ident_like_cases _ _ _ Hs E) as [(-> & -> & Hn) | [(n & -> & E1 & E2 & E3) | (n & t' & E0 & E1 & E2 & E3 & E4 & E5)]].
    - apply StIdent; assumption.
    - exact (StFun c t n r0 Hw E1 E2 E3).
    - exact (StUrl c t tk n t' r0 E0 E1 E2 E3 E4 E5). }
  assert (NU : would_start_number (c :: t) = true -> forall o r, (Some (fst (numeric (c :: t))), snd (numeric (c :: t))) = (o, r) -> step c t o r).
  { intros Hw o' r' H. destruct (numeric (c :: t)) as [tk r0] eqn:E. cbn in H. assert (o' = Some tk /\ r' = r0) as [-> ->] by (split; congruence).
    destruct (numeric_after _ _ _ Hs E) as [H1 H2]. exact (StNum c t tk r0 H1 (numeric_moves _ _ _ Hs Hw E) H2). }
  assert (P : forall (o1 : option ctok) r1, (o1, r1) = (o, r) -> o1 = o /\ r1 = r) by (intros; split; congruence).
  destruct (starts (u "/*") (c :: t)) eqn:E0; [intros H; apply P in H; destruct H as [<- <-]; exact (StComment c t E0)|].
  destruct (css_ws c) eqn:E1; [intros H; apply P in H; destruct H as [<- <-]; exact (StWs c t E1)|].
  destruct ((c =? 34) || (c =? 39)) eqn:E2.
  { intros H; apply P in H; destruct H as [<- <-]. apply StStr; [lia|]. apply surjective_pairing. }
  assert (DL : (Some (CDelim c), t) = (o, r) -> step c t o r) by (intros H; apply P in H; destruct H as [<- <-]; exact (StDelim c t E0)).
  destruct (N.eqb_spec c 35) as [E3|E3].
  { destruct (match t with [] => false | d :: _ => ident_char d || valid_escape t end); [|exact DL].
    rewrite ident_seq_plain by exact Ht. intros H; apply P in H; destruct H as [<- <-]. exact (StHash c t E3). }
  destruct ((c =? 43) || (c =? 46)) eqn:E4.
  { destruct (would_start_number (c :: t)) eqn:E; [exact (NU eq_refl o r)|exact DL]. }
  destruct (N.eqb_spec c 45) as [E5|E5].
  { destruct (would_start_number (c :: t)) eqn:E; [exact (NU eq_refl o r)|].
    destruct (starts (u "-->") (c :: t)) eqn:Ec; [intros H; apply P in H; destruct H as [<- <-]; exact (StCdc c t Ec)|].
    destruct (would_start_ident (c :: t)) eqn:Ei; [exact (IL eq_refl o r)|exact DL]. }
  destruct (N.eqb_spec c 58) as [E6|E6]; [intros H; apply P in H; destruct H as [<- <-]; exact (StColon c t E6)|].
  destruct (N.eqb_spec c 59) as [E7|E7]; [intros H; apply P in H; destruct H as [<- <-]; exact (StSemi c t E7)|].
  destruct (N.eqb_spec c 60) as [E8|E8].
  { destruct (starts (u "<!--") (c :: t)) eqn:Ec; [intros H; apply P in H; destruct H as [<- <-]; exact (StCdo c t Ec)|exact DL]. }
  destruct (N.eqb_spec c 64) as [E9|E9].
  { destruct (would_start_ident t); [|exact DL]. rewrite ident_seq_plain by exact Ht. intros H; apply P in H; destruct H as [<- <-]. exact (StAt c t E9). }
  destruct (N.eqb_spec c 92) as [E10|E10]; [exfalso; apply Hs; left; exact E10|].
  destruct (is_digit_ascii c) eqn:E11.
  { apply NU. unfold would_start_number. destruct ((c =? 43) || (c =? 45)) eqn:E; [unfold is_digit_ascii in E11; lia|]. cbn [digit_first]. rewrite E11; reflexivity. }
  destruct (ident_start c) eqn:E12; [|exact DL].
  apply IL. unfold would_start_ident. destruct (N.eqb_spec c 45); [contradiction|]. rewrite E12; reflexivity.
Qed.

Lemma app_moves {A} (x r : list A) c t : (c :: t = x ++ r -> x <> [] -> List.length r < List.length (c :: t))%nat%list.
Proof. intros E Hx. destruct x as [|d x]; [contradiction|]. rewrite E. cbn. rewrite app_length. lia. Qed.
Lemma starts_app_suffix p c t : starts p (c :: t) = true -> exists r, c :: t = (p ++ r)%list.
Proof. apply starts_spec. Qed.
Lemma after_comment_suffix s : suffix (after_comment s) s.
Proof. unfold after_comment. destruct (find _ s); [apply suffix_skipn|apply suffix_nil]. Qed.
(* every step consumes something *)
Lemma step_suffix c t o r : ~ In 92 (c :: t) -> step c t o r -> suffix r (c :: t) /\ (List.length r < List.length (c :: t))%nat.
Proof.
  intros Hs H. assert (Hd : forall r, suffix r t -> suffix r (c :: t) /\ (List.length r < List.length (c :: t))%nat).
  { intros r' Hr. split; [auto with suf|]. apply suffix_len in Hr. cbn; lia. }
  assert (Ht : ~ In 92 t) by (intros H'; apply Hs; right; exact H').
  destruct H.
  - apply Hd. apply (suffix_trans _ (tl t)); [apply after_comment_suffix|apply suffix_tl].
  - apply Hd, suffix_drop.
  - apply Hd. pose proof (consume_string_suffix (S (List.length t)) c t Ht) as H1. rewrite H0 in H1. exact H1.
  - apply Hd. cbn [drop_while]. rewrite (would_start_first c t Hs H). apply suffix_drop.
  - split; [exists (n ++ [40])%list; rewrite H0, <- app_assoc; reflexivity|].
    apply (app_moves (n ++ [40])%list); [rewrite H0, <- app_assoc; reflexivity|]. destruct n; discriminate.
  - destruct H4 as [x ->]. split; [exists (n ++ 40 :: x)%list; rewrite H0, <- app_assoc; reflexivity|].
    apply (app_moves (n ++ 40 :: x)%list); [rewrite H0, <- app_assoc; reflexivity|]. destruct n; discriminate.
  - apply Hd, suffix_drop.
  - apply Hd, suffix_drop.
  - split; [exact (after_suffix _ _ _ H)|]. destruct H as (x & E & _). apply (app_moves x); [exact E|]. intros ->. apply H0. symmetry; exact E.
  - apply Hd, suffix_refl.
  - apply Hd, suffix_refl.
  - apply Hd, suffix_skipn.
  - apply Hd, suffix_skipn.
  - apply Hd, suffix_refl.
Qed.

Lemma tokens_fuel k : forall s, ~ In 92 s -> (List.length s <= k)%nat -> tokens_go k s = css_tokens s.
Proof.
  enough (forall n k s, ~ In 92 s -> (List.length s <= k)%nat -> (List.length s <= n)%nat -> tokens_go k s = tokens_go n s) as E.
  { intros s Hs Hk. apply E; [exact Hs|exact Hk|lia]. }
  induction n as [|n IH]; intros k' s Hs Hk Hn.
  - destruct s; [|cbn in Hn; lia]. destruct k'; reflexivity.
  - destruct s as [|c t]; [destruct k'; reflexivity|]. destruct k' as [|k']; [cbn in Hk; lia|]. cbn [tokens_go].
    destruct (consume_token c t) as [o r] eqn:Ec. destruct (step_suffix _ _ _ _ Hs (consume_token_step _ _ _ _ Hs Ec)) as [H1 H2].
    cbn [List.length] in *. rewrite (IH k' r); [reflexivity|exact (suffix_In _ _ _ H1 Hs)|lia|lia].
Qed.
Lemma css_tokens_step c t o r : ~ In 92 (c :: t) -> consume_token c t = (o, r) ->
  css_tokens (c :: t) = match o with Some tk => tk :: css_tokens r | None => css_tokens r end.
Proof.
  intros Hs H. unfold css_tokens at 1. cbn [List.length tokens_go]. rewrite H.
  destruct (step_suffix _ _ _ _ Hs (consume_token_step _ _ _ _ Hs H)) as [H1 H2]. cbn [List.length] in H2.
  rewrite tokens_fuel; [reflexivity|exact (suffix_In _ _ _ H1 Hs)|lia].
Qed.
(* where a token of the stream comes from: the tokenizer reaches a suffix of the input from which it reads that token *)
Inductive reaches : str -> str -> Prop :=
| reach_here s : reaches s s
| reach_step c t o r s : step c t o r -> reaches r s -> reaches (c :: t) s.
Lemma reaches_suffix s s' : ~ In 92 s -> reaches s s' -> suffix s' s.
Proof.
  intros Hs H. induction H as [|c t o r s H Hr IH]; [apply suffix_refl|]. destruct (step_suffix _ _ _ _ Hs H) as [H1 _].
  apply (suffix_trans _ r); [|exact H1]. apply IH. exact (suffix_In _ _ _ H1 Hs).
Qed.
Lemma token_origin s pre tk post : ~ In 92 s -> css_tokens s = (pre ++ tk :: post)%list ->
  exists c t r, reaches s (c :: t) /\ step c t (Some tk) r /\ post = css_tokens r /\ suffix (c :: t) s.
Proof.
  remember (List.length s) as n eqn:En. revert s En pre. induction n as [n IH] using (well_founded_induction lt_wf). intros s -> pre Hs E.
  destruct s as [|c t]; [destruct pre; discriminate E|].
  destruct (consume_token c t) as [o r] eqn:Ec. pose proof (consume_token_step _ _ _ _ Hs Ec) as St.
  rewrite (css_tokens_step _ _ _ _ Hs Ec) in E. destruct (step_suffix _ _ _ _ Hs St) as [H1 H2].
  assert (Hr : ~ In 92 r) by exact (suffix_In _ _ _ H1 Hs).
  assert (Hrec : forall pre, css_tokens r = (pre ++ tk :: post)%list -> exists c0 t0 r0, reaches (c :: t) (c0 :: t0) /\ step c0 t0 (Some tk) r0 /\ post = css_tokens r0 /\ suffix (c0 :: t0) (c :: t)).
  { intros pre' E'. destruct (IH _ H2 r eq_refl pre' Hr E') as (c0 & t0 & r0 & A & B & C & D).
    exists c0, t0, r0. repeat split; auto; [exact (reach_step _ _ _ _ _ St A)|exact (suffix_trans _ _ _ D H1)]. }
  destruct o as [tk0|]; [|exact (Hrec pre E)].
  destruct pre as [|p0 pre]; cbn [app] in E.
  - assert (tk0 = tk /\ css_tokens r = post) as [-> <-] by (split; congruence). exists c, t, r. repeat split; auto; [apply reach_here|apply suffix_refl].
  - assert (css_tokens r = (pre ++ tk :: post)%list) by congruence. exact (Hrec pre H).
Qed.
