From Coq Require Import Lia ZArith.
From Verif Require Import Str StrFacts UrlModel EntitiesModel CoerceModel CoerceSpec.
Ltac Zify.zify_post_hook ::= Z.div_mod_to_equations.

(* newlines *)
Lemma normalized_fun s r : normalized s r -> forall r', normalized s r' -> r' = r.
Proof.
  induction 1 as [|s r H IH|s r X H IH|c s r X H IH]; intros r' H'; inversion H'; subst; try congruence;
    try (f_equal; apply IH; assumption); exfalso;
    match goal with X : forall t, _ <> 10 :: t |- _ => eapply X; reflexivity end.
Qed.
Lemma normalized_no_cr s r : normalized s r -> ~ In 13 r.
Proof. induction 1; cbn [In]; intros K; [exact K| | |]; destruct K as [K|K]; congruence || contradiction. Qed.
Lemma normalized_same s : ~ In 13 s -> normalized s s.
Proof. induction s as [|c s IH]; intros H; constructor; [intros ->; apply H; left; reflexivity|]. apply IH. intros K. apply H. right. exact K. Qed.

Lemma mem_In c s : mem c s = true <-> In c s.
Proof. unfold mem. rewrite existsb_exists. split; [intros (x & H & E); apply N.eqb_eq in E; subst; exact H|intros H; exists c; split; [exact H|apply N.eqb_refl]]. Qed.

Lemma cr_normal n : forall s, (List.length s < n)%nat -> normalized s (replace_go [13] [10] O (replace_go [13; 10] [10] O s)).
Proof.
  induction n as [|n IH]; intros s L; [lia|]. destruct s as [|c s]; [constructor|]. cbn [List.length] in L.
  cbn [replace_go]. cbn [starts]. destruct (13 =? c) eqn:E; cbn [andb].
  - apply N.eqb_eq in E; subst c. destruct s as [|d s].
    + cbn. apply N_cr; [discriminate|constructor].
    + cbn [List.length] in L. destruct (10 =? d) eqn:E2; cbn [andb].
      * apply N.eqb_eq in E2; subst d. cbn [List.length Nat.sub replace_go app starts]. cbn. apply N_crlf. apply IH. lia.
      * cbn [replace_go starts]. cbn [N.eqb]. cbn. apply N_cr; [intros t K; injection K as -> ->; discriminate|]. apply (IH (d :: s)). cbn [List.length]. lia.
  - cbn [replace_go starts]. rewrite E. cbn [andb]. apply N_char; [intros ->; discriminate|]. apply IH. lia.
Qed.
Lemma newlines_normal b s : (In 13 s -> b = true) -> normalized s (newlines b s).
Proof.
  intros H. unfold newlines. destruct (mem 13 s) eqn:M.
  - rewrite (H (proj1 (mem_In _ _) M)). cbn [andb]. eapply cr_normal. constructor.
  - rewrite andb_false_r. apply normalized_same. intros K. apply mem_In in K. congruence.
Qed.

(* nulls *)
Lemma nulls_flat b r s : (In 0 s -> b = true) -> nulls b r s = flat_map (fun x => if x =? 0 then r else [x]) s.
Proof.
  intros H. unfold nulls. destruct (mem 0 s) eqn:M.
  - rewrite (H (proj1 (mem_In _ _) M)). reflexivity.
  - rewrite andb_false_r. assert (K : ~ In 0 s) by (intros K; apply mem_In in K; congruence). clear -K.
    induction s as [|c s IH]; [reflexivity|]. cbn [flat_map]. destruct (c =? 0) eqn:E; [apply N.eqb_eq in E; subst; exfalso; apply K; left; reflexivity|].
    cbn [app]. f_equal. apply IH. intros J. apply K. right. exact J.
Qed.

(* XML text *)
Lemma invalid_single_spec c : mem c invalid_single = true <-> c <= 1114111 /\ (c mod 65536 = 65534 \/ c mod 65536 = 65535).
Proof.
  rewrite mem_In. unfold invalid_single. rewrite in_flat_map. split.
  - intros (p & Hp & H). apply in_seq in Hp. cbn [In] in H. assert (N.of_nat p <= 16) by lia.
    destruct H as [<-|[<-|[]]]; split; lia.
  - intros [H1 H2]. exists (N.to_nat (c / 65536)). split; [apply in_seq; assert (c / 65536 < 17) by (apply N.div_lt_upper_bound; lia); lia|].
    rewrite N2Nat.id. pose proof (N.div_mod c 65536 ltac:(lia)) as D. cbn [In]. destruct H2 as [H2|H2]; rewrite H2 in D; [left|right; left]; lia.
Qed.
Lemma xml_pattern_spec c : xml_pattern c = true <-> c = 12 \/ nonchar c.
Proof.
  unfold xml_pattern, nonchar. rewrite !orb_true_iff, andb_true_iff, !N.leb_le, N.eqb_eq, invalid_single_spec. tauto.
Qed.
Lemma pattern_ff c : c < 128 -> xml_pattern c = (c =? 12).
Proof.
  intros H. destruct (c =? 12) eqn:E.
  - apply xml_pattern_spec. left. apply N.eqb_eq, E.
  - destruct (xml_pattern c) eqn:P; [|reflexivity]. apply xml_pattern_spec in P. apply N.eqb_neq in E. destruct P as [P|[P|[P Q]]]; lia.
Qed.
Definition coerce_char (c : N) : N := if xml_pattern c then xml_callback c else c.
Lemma coerce_text_map s : coerce_text s = map coerce_char s.
Proof.
  unfold coerce_text. destruct (is_ascii s) eqn:A.
  - assert (M : map coerce_char s = replace_char 12 [32] s).
    { unfold is_ascii in A. rewrite forallb_forall in A. induction s as [|c s IH]; [reflexivity|]. unfold replace_char. cbn [map flat_map].
      assert (L : c < 128) by (apply N.ltb_lt, A; left; reflexivity). unfold coerce_char at 1. rewrite (pattern_ff c L). unfold xml_callback.
      fold (replace_char 12 [32] s). rewrite IH by (intros x Hx; apply A; right; exact Hx). destruct (c =? 12) eqn:E; cbn [app]; reflexivity. }
    destruct (mem 12 s) eqn:F; [symmetry; exact M|]. rewrite M. unfold replace_char. assert (K : ~ In 12 s) by (intros K; apply mem_In in K; congruence). clear -K.
    induction s as [|c s IH]; [reflexivity|]. cbn [flat_map]. destruct (c =? 12) eqn:E; [apply N.eqb_eq in E; subst; exfalso; apply K; left; reflexivity|].
    cbn [app]. f_equal. apply IH. intros J. apply K. right. exact J.
  - destruct (existsb xml_pattern s) eqn:E; [reflexivity|]. cbn [negb]. clear A. induction s as [|c s IH]; [reflexivity|]. cbn [existsb] in E. apply orb_false_iff in E. destruct E as [E1 E2].
    cbn [map]. unfold coerce_char at 1. rewrite E1. f_equal. apply IH, E2.
Qed.
Lemma coerce_char_spec c : coerced c (coerce_char c).
Proof.
  unfold coerce_char. destruct (xml_pattern c) eqn:P.
  - unfold xml_callback. destruct (c =? 12) eqn:E; [apply N.eqb_eq in E; subst; constructor|]. apply xml_pattern_spec in P. apply N.eqb_neq in E. constructor. tauto.
  - constructor; intros K; assert (xml_pattern c = true) by (apply xml_pattern_spec; tauto); congruence.
Qed.
Lemma coerce_text_spec s : Forall2 coerced s (coerce_text s).
Proof. rewrite coerce_text_map. induction s; cbn [map]; constructor; [apply coerce_char_spec|assumption]. Qed.
Lemma fffd_plain : ~ nonchar 65533.
Proof. unfold nonchar. intros [H|[_ H]]; lia. Qed.
Lemma coerced_clean c d : coerced c d -> d <> 12 /\ ~ nonchar d.
Proof.
  destruct 1 as [|c H|c H H2]; split; try lia; try assumption; try apply fffd_plain.
  unfold nonchar. intros [H|[_ H]]; lia.
Qed.
Lemma coerce_text_clean s c : In c (coerce_text s) -> c <> 12 /\ ~ nonchar c.
Proof.
  rewrite coerce_text_map, in_map_iff. intros (x & <- & _). eapply coerced_clean, coerce_char_spec.
Qed.
Lemma coerce_char_id c : c <> 12 -> ~ nonchar c -> coerce_char c = c.
Proof. intros H1 H2. unfold coerce_char. destruct (xml_pattern c) eqn:P; [|reflexivity]. apply xml_pattern_spec in P. tauto. Qed.
Lemma coerce_text_id s : (forall c, In c s -> c <> 12 /\ ~ nonchar c) -> coerce_text s = s.
Proof. intros H. rewrite coerce_text_map. rewrite <- (map_id s) at 2. apply map_ext_in. intros c Hc. apply coerce_char_id; apply H; exact Hc. Qed.

(* comments *)
Fixpoint dashes (s : str) {struct s} : str :=
  match s with
  | [] => []
  | a :: t => match t with b :: t2 => if (45 =? a) && (45 =? b) then 45 :: 32 :: 45 :: dashes t2 else a :: dashes t | [] => [a] end
  end.
Lemma dashes_eq s : dashes s = match s with [] => [] | a :: t => match t with b :: t2 => if (45 =? a) && (45 =? b) then 45 :: 32 :: 45 :: dashes t2 else a :: dashes t | [] => [a] end end.
Proof. destruct s; reflexivity. Qed.
Lemma replace_dashes n : forall s, (List.length s < n)%nat -> replace [45; 45] [45; 32; 45] s = dashes s.
Proof.
  unfold replace. induction n as [|n IH]; intros s L; [lia|]. rewrite dashes_eq. destruct s as [|a s]; [reflexivity|]. cbn [List.length] in L. cbn [replace_go starts].
  destruct s as [|b s].
  - rewrite andb_false_r. reflexivity.
  - cbn [List.length] in L. rewrite andb_true_r. destruct ((45 =? a) && (45 =? b)) eqn:E.
    + cbn [List.length Nat.sub replace_go app]. rewrite IH by lia. reflexivity.
    + f_equal. apply IH. cbn [List.length]. lia.
Qed.
Definition has2 (s : str) : Prop := exists a b, s = (a ++ [45; 45] ++ b)%list.
Definition has3 (s : str) : Prop := exists a b, s = (a ++ [45; 45; 45] ++ b)%list.
Lemma has3_cons c s : has3 s -> has3 (c :: s).
Proof. intros (a & b & ->). exists (c :: a), b. reflexivity. Qed.
Lemma has2_cons c s : has2 (c :: s) -> (c = 45 /\ exists t, s = 45 :: t) \/ has2 s.
Proof.
  intros (a & b & E). destruct a as [|x a]; cbn in E; injection E as -> E; [left; split; [reflexivity|eauto]|]. right. exists a, b. exact E.
Qed.
Lemma contains_has2 s : contains [45; 45] s = false -> ~ has2 s.
Proof.
  unfold contains. destruct (find [45; 45] s) eqn:F; [discriminate|]. intros _ (a & b & E). clear -F E. subst s.
  induction a as [|x a IH]; cbn in F; [discriminate|]. change (a ++ 45 :: 45 :: b)%list with (a ++ [45; 45] ++ b)%list in F.
  destruct (find [45; 45] (a ++ [45; 45] ++ b)) eqn:G; [|apply IH; reflexivity].
  destruct ((match a ++ [45;45] ++ b with [] => false | y :: _ => true end)%list); destruct (starts [45;45] (x :: a ++ [45; 45] ++ b)) eqn:S; cbn in S, F; try rewrite S in F; discriminate.
Qed.
Lemma dashes_id n : forall s, (List.length s < n)%nat -> ~ has2 s -> dashes s = s.
Proof.
  induction n as [|n IH]; intros s L H; [lia|]. rewrite dashes_eq. destruct s as [|a [|b s]]; try reflexivity. cbn [List.length] in L.
  destruct ((45 =? a) && (45 =? b)) eqn:E.
  - exfalso. apply H. apply andb_true_iff in E. destruct E as [E1 E2]. apply N.eqb_eq in E1, E2. subst. exists [], s. reflexivity.
  - f_equal. apply IH; [cbn [List.length]; lia|]. intros (x & y & Q). apply H. exists (a :: x), y. rewrite Q. reflexivity.
Qed.
Lemma coerce_comment_dashes s : coerce_comment s = dashes s.
Proof.
  unfold coerce_comment. destruct (contains [45; 45] s) eqn:C; [eapply replace_dashes; constructor|]. symmetry. eapply dashes_id; [constructor|]. apply contains_has2, C.
Qed.
Lemma dashes_head s : hd 0 (dashes s) = hd 0 s.
Proof. rewrite dashes_eq. destruct s as [|a [|b s]]; try reflexivity. destruct ((45 =? a) && (45 =? b)) eqn:E; [|reflexivity]. apply andb_true_iff in E. destruct E as [E _]. apply N.eqb_eq in E. cbn. exact E. Qed.
Lemma dashes_no2 n : forall s, (List.length s < n)%nat -> ~ has3 s -> ~ has2 (dashes s).
Proof.
  induction n as [|n IH]; intros s L H; [lia|]. rewrite dashes_eq. destruct s as [|a s]; [intros (x & y & E); destruct x; discriminate|]. cbn [List.length] in L.
  destruct s as [|b s]; [intros (x & y & E); destruct x as [|? [|? ?]]; discriminate|]. cbn [List.length] in L. destruct ((45 =? a) && (45 =? b)) eqn:E.
  - apply andb_true_iff in E. destruct E as [E1 E2]. apply N.eqb_eq in E1, E2. subst. intros K.
    apply has2_cons in K. destruct K as [[_ (t & K)]|K]; [discriminate|]. apply has2_cons in K. destruct K as [[K _]|K]; [discriminate|]. apply has2_cons in K. destruct K as [[_ (t & K)]|K].
    + pose proof (dashes_head s) as D. rewrite K in D. cbn in D. destruct s as [|c s]; [discriminate|]. cbn in D. subst c. apply H. exists [], s. reflexivity.
    + eapply (IH s); [lia| |exact K]. intros J. apply H. do 2 apply has3_cons. exact J.
  - intros K. apply has2_cons in K. destruct K as [[-> (t & K)]|K].
    + pose proof (dashes_head (b :: s)) as D. rewrite K in D. cbn in D. subst b. rewrite N.eqb_refl in E. discriminate.
    + eapply (IH (b :: s)); [cbn [List.length]; lia| |exact K]. intros J. apply H. apply has3_cons. exact J.
Qed.
Lemma dashes_spaces n : forall s, (List.length s < n)%nat -> filter (fun c => negb (c =? 32)) (dashes s) = filter (fun c => negb (c =? 32)) s.
Proof.
  induction n as [|n IH]; intros s L; [lia|]. rewrite dashes_eq. destruct s as [|a [|b s]]; try reflexivity. cbn [List.length] in L. destruct ((45 =? a) && (45 =? b)) eqn:E.
  - apply andb_true_iff in E. destruct E as [E1 E2]. apply N.eqb_eq in E1, E2. subst. cbn. do 2 f_equal. apply IH. lia.
  - set (f := fun c => negb (c =? 32)) in *. assert (G : forall x l, filter f (x :: l) = if f x then x :: filter f l else filter f l) by reflexivity.
    rewrite (G a (dashes (b :: s))), (G a (b :: s)), (IH (b :: s)) by (cbn [List.length]; lia). reflexivity.
Qed.
Lemma dashes_last n : forall s a, (List.length s < n)%nat -> dashes s = (a ++ [45])%list -> exists b, s = (b ++ [45])%list.
Proof.
  induction n as [|n IH]; intros s a L H; [lia|]. rewrite dashes_eq in H. destruct s as [|x [|y s]]; [destruct a; discriminate| |].
  - destruct a as [|? [|? ?]]; try discriminate. injection H as ->. exists []. reflexivity.
  - cbn [List.length] in L. destruct ((45 =? x) && (45 =? y)) eqn:E.
    + apply andb_true_iff in E. destruct E as [E1 E2]. apply N.eqb_eq in E1, E2. subst. destruct s as [|z s].
      * exists [45]. reflexivity.
      * destruct (dashes (z :: s)) as [|q r] eqn:D. { rewrite dashes_eq in D. destruct s as [|w s]; [discriminate|]. destruct ((45 =? z) && (45 =? w)); discriminate. }
        destruct a as [|? [|? [|? a]]]; cbn in H; try discriminate. injection H as _ _ _ H.
        destruct (IH (z :: s) a) as (b & B); [cbn [List.length] in *; lia|rewrite D; exact H|]. exists (45 :: 45 :: b). rewrite B. reflexivity.
    + destruct a as [|v a]; cbn [app] in H; injection H as Hx H. { exfalso. destruct s as [|w s]; [discriminate H|]. match type of H with context [if ?b then _ else _] => destruct b end; discriminate H. }
      destruct (IH (y :: s) a) as (b & B); [cbn [List.length]; lia|exact H|]. exists (v :: b). rewrite B, Hx. reflexivity.
Qed.

(* surrogate pairs *)
Definition hi (c : N) : bool := (55296 <=? c) && (c <=? 56319).
Definition lo (c : N) : bool := (56320 <=? c) && (c <=? 57343).
Definition joined (h l : N) : N := 65536 + N.shiftl (h - 55296) 10 + (l - 56320).
Fixpoint pairs (s : str) {struct s} : str :=
  match s with
  | [] => []
  | a :: t => match t with b :: t2 => if hi a && lo b then joined a b :: pairs t2 else a :: pairs t | [] => [a] end
  end.
Lemma pairs_eq s : pairs s = match s with [] => [] | a :: t => match t with b :: t2 => if hi a && lo b then joined a b :: pairs t2 else a :: pairs t | [] => [a] end end.
Proof. destruct s; reflexivity. Qed.
Lemma loop_eq done result s : pairs_loop done result s = match s with [] => result | ch :: t => match t with next :: t2 => if hi ch && lo next then pairs_loop (done ++ [ch; next]) (Some (match result with None => done | Some r => r end ++ [joined ch next])%list) t2 else pairs_loop (done ++ [ch]) (option_map (fun r => r ++ [ch])%list result) t | [] => pairs_loop (done ++ [ch]) (option_map (fun r => r ++ [ch])%list result) t end end.
Proof. destruct s; reflexivity. Qed.
Definition out (done : str) (result : option str) : str := match result with None => done | Some r => r end.
Lemma loop_spec n : forall s done result, (List.length s < n)%nat -> out (done ++ s) (pairs_loop done result s) = (out done result ++ pairs s)%list.
Proof.
  induction n as [|n IH]; intros s done result L; [lia|]. rewrite loop_eq, pairs_eq. destruct s as [|a s].
  - rewrite !app_nil_r. reflexivity.
  - cbn [List.length] in L. destruct s as [|b s].
    + rewrite loop_eq. destruct result; reflexivity.
    + cbn [List.length] in L. destruct (hi a && lo b).
      * replace (done ++ a :: b :: s)%list with ((done ++ [a; b]) ++ s)%list by (rewrite <- app_assoc; reflexivity). rewrite IH by lia. cbn [out]. rewrite <- app_assoc. destruct result; reflexivity.
      * replace (done ++ a :: b :: s)%list with ((done ++ [a]) ++ b :: s)%list by (rewrite <- app_assoc; reflexivity). rewrite IH by (cbn [List.length]; lia). destruct result; cbn [out option_map]; rewrite <- app_assoc; reflexivity.
Qed.
Lemma ascii_pairs n : forall s, (List.length s < n)%nat -> is_ascii s = true -> pairs s = s.
Proof.
  induction n as [|n IH]; intros s L A; [lia|]. rewrite pairs_eq. destruct s as [|a [|b s]]; try reflexivity. cbn [List.length] in L. unfold is_ascii in A. cbn [forallb] in A. apply andb_true_iff in A. destruct A as [A1 A2].
  assert (H : hi a = false). { apply N.ltb_lt in A1. unfold hi. destruct (55296 <=? a) eqn:E; [apply N.leb_le in E; lia|reflexivity]. } rewrite H. cbn [andb]. f_equal. apply IH; [cbn [List.length]; lia|exact A2].
Qed.
Lemma normalize_pairs_eq s : normalize_pairs s = pairs s.
Proof.
  unfold normalize_pairs. destruct (is_ascii s) eqn:A; [symmetry; eapply ascii_pairs; [constructor|exact A]|]. pose proof (loop_spec (S (List.length s)) s [] None (le_n _)) as P. cbn [out app] in P. exact P.
Qed.
Lemma joined_ge h l : 65536 <= joined h l.
Proof. unfold joined. lia. Qed.
Lemma joined_utf16 h l : hi h = true -> lo l = true -> utf16_char (joined h l) = [h; l].
Proof.
  unfold hi, lo. rewrite !andb_true_iff, !N.leb_le. intros [H1 H2] [L1 L2]. unfold utf16_char. pose proof (joined_ge h l) as G. apply N.leb_le in G. rewrite G. unfold joined. rewrite N.shiftl_mul_pow2. change (2 ^ 10) with 1024.
  replace (65536 + (h - 55296) * 1024 + (l - 56320) - 65536) with ((l - 56320) + (h - 55296) * 1024) by lia. rewrite N.div_add, N.mod_add by lia. rewrite N.div_small, N.mod_small by lia. f_equal; [lia|]. f_equal. lia.
Qed.
Lemma pairs_utf16 n : forall s, (List.length s < n)%nat -> utf16 (pairs s) = utf16 s.
Proof.
  induction n as [|n IH]; intros s L; [lia|]. rewrite pairs_eq. destruct s as [|a [|b s]]; try reflexivity. cbn [List.length] in L. destruct (hi a && lo b) eqn:E.
  - apply andb_true_iff in E. destruct E as [E1 E2]. unfold utf16 in *. cbn [flat_map]. rewrite (joined_utf16 a b E1 E2), IH by lia. cbn [app].
    assert (A : utf16_char a = [a]). { unfold utf16_char, hi in *. apply andb_true_iff in E1. destruct E1 as [_ E1]. apply N.leb_le in E1. destruct (65536 <=? a) eqn:Q; [apply N.leb_le in Q; lia|reflexivity]. }
    assert (B : utf16_char b = [b]). { unfold utf16_char, lo in *. apply andb_true_iff in E2. destruct E2 as [_ E2]. apply N.leb_le in E2. destruct (65536 <=? b) eqn:Q; [apply N.leb_le in Q; lia|reflexivity]. }
    rewrite A, B. reflexivity.
  - unfold utf16 in *. cbn [flat_map]. f_equal. apply IH. cbn [List.length]. lia.
Qed.
Lemma pairs_head s : match pairs s with [] => s = [] | c :: _ => 65536 <= c \/ exists t, s = c :: t end.
Proof. rewrite pairs_eq. destruct s as [|a [|b s]]; [reflexivity|right; eauto|]. destruct (hi a && lo b); [left; apply joined_ge|right; eauto]. Qed.
Lemma pairs_none n : forall s, (List.length s < n)%nat -> no_pair (pairs s).
Proof.
  induction n as [|n IH]; intros s L a h l b E H1 H2 L1 L2; [lia|]. rewrite pairs_eq in E. destruct s as [|x [|y s]].
  - destruct a; discriminate.
  - destruct a as [|? [|? ?]]; discriminate.
  - cbn [List.length] in L. destruct (hi x && lo y) eqn:P.
    + destruct a as [|z a]; cbn in E; injection E as E1 E2; [pose proof (joined_ge x y); lia|]. eapply (IH s); [lia|exact E2| | | |]; assumption.
    + destruct a as [|z a]; cbn [app] in E.
      * injection E as -> E2. change (pairs (y :: s) = (l :: b)%list) in E2. pose proof (pairs_head (y :: s)) as Q. rewrite E2 in Q. destruct Q as [Q|(t & Q)]; [lia|]. injection Q as -> _. unfold hi, lo in P.
        apply N.leb_le in H1, H2, L1, L2. rewrite H1, H2, L1, L2 in P. discriminate.
      * injection E as _ E2. eapply (IH (y :: s)); [cbn [List.length]; lia|exact E2| | | |]; assumption.
Qed.
