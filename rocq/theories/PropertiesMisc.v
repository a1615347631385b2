(* PROPERTIES C44, C47-C50, C52 *)
From Coq Require Import Lia ZifyBool ZifyN ZifyNat Permutation Sorted.
From Verif Require Import Str StrFacts MiscModel MiscSpec MiscProofs MiscGlobProofs MiscSpaceProofs DoctypeModel DoctypeSpec DoctypeProofs DoctypeFinal.
Open Scope N_scope.

(* ---------- C52 ---------- *)
(* the reported position is the one reached by counting lines and columns from (1, 1) up to the offset *)
Theorem C52_exact : forall html pos, (pos < List.length html)%nat -> line_col html pos = Some (after (firstn pos html)).
Proof. exact line_col_after. Qed.
Print Assumptions C52_exact.
(* one plus the number of newlines before the offset, one plus the distance to the last of them *)
Theorem C52_lines_and_columns : forall html pos l c, (pos < List.length html)%nat -> line_col html pos = Some (l, c) ->
  l = S (List.length (filter (fun x => x =? 10) (firstn pos html))) /\
  exists a b, firstn pos html = (a ++ b)%list /\ c = S (List.length b) /\ ~ In 10 b /\ (a = [] \/ exists a', a = (a' ++ [10])%list).
Proof.
  intros html pos l c L H. rewrite line_col_after in H by exact L. assert (E : after (firstn pos html) = (l, c)) by congruence. clear H L. revert l c E. generalize (firstn pos html). clear. intros s. induction s as [|x s IH] using rev_ind; intros l c E.
  - unfold after in E. cbn in E. assert (l = 1%nat /\ c = 1%nat) as [-> ->] by (split; congruence). split; [reflexivity|]. exists [], []. repeat split; [intros []|left; reflexivity].
  - rewrite after_snoc in E. destruct (after s) as [l0 c0] eqn:E0. destruct (IH l0 c0 eq_refl) as (A & a & b & B1 & B2 & B3 & B4). cbn [fst snd] in E. rewrite filter_app, app_length. cbn [filter]. destruct (N.eqb_spec x 10) as [->|Nx].
    + assert (l = S l0 /\ c = 1%nat) as [-> ->] by (split; congruence). split; [cbn [List.length]; lia|]. exists (s ++ [10]), []. rewrite app_nil_r. repeat split; [intros []|right; exists s; reflexivity].
    + assert (l = l0 /\ c = S c0) as [-> ->] by (split; congruence). split; [cbn [List.length]; lia|]. exists a, (b ++ [x]). rewrite app_assoc, <- B1, app_length. cbn [List.length]. repeat split; [lia| |exact B4]. intros I. apply in_app_or in I as [I|[I|[]]]; [exact (B3 I)|congruence].
Qed.
Print Assumptions C52_lines_and_columns.
(* later offsets have later positions, so no two offsets share one *)
Theorem C52_monotone : forall html i j, (i < j < List.length html)%nat -> exists p q, line_col html i = Some p /\ line_col html j = Some q /\ lex_lt p q.
Proof.
  intros html i j L. rewrite !line_col_after by lia. do 2 eexists. split; [reflexivity|]. split; [reflexivity|].
  assert (E : firstn j html = firstn i html ++ firstn (j - i) (skipn i html)).
  { rewrite <- (firstn_skipn i html) at 1. rewrite firstn_app, firstn_length, Nat.min_l by lia. rewrite firstn_firstn, Nat.min_r by lia. reflexivity. }
  rewrite E. apply after_app. intros Q. apply (f_equal (@List.length _)) in Q. rewrite firstn_length, skipn_length in Q. cbn [List.length] in Q. lia.
Qed.
Print Assumptions C52_monotone.
(* an offset past the end is reported as the last character *)
Theorem C52_past_the_end : forall html pos, (List.length html <= pos)%nat -> html <> [] -> line_col html pos = Some (after (removelast html)).
Proof.
  intros html pos L Ne. assert (E : line_col html pos = line_col html (List.length html - 1)).
  { unfold line_col. destruct (Nat.leb_spec (List.length html) pos) as [_|]; [|lia]. assert (List.length html <> O) by (destruct html; [contradiction|discriminate]). destruct (Nat.leb_spec (List.length html) (List.length html - 1)); [lia|]. reflexivity. }
  rewrite E, line_col_after by (destruct html; [contradiction|cbn [List.length]; lia]). f_equal. f_equal. rewrite removelast_firstn_len. f_equal. lia.
Qed.
Print Assumptions C52_past_the_end.
Example C52_example : map (line_col (u "ab" ++ [10; 10] ++ u "c")) (seq 0 6) = map Some [(1, 1); (1, 2); (1, 3); (2, 1); (3, 1); (3, 1)]%nat.
Proof. vm_compute. reflexivity. Qed.

(* ---------- C48 ---------- *)
Section C48.
Variable E : Type.
Variables line column : E -> option N.
Definition at_ (e : E) : option N * option N := (line e, column e).
Definition realistic (es : list E) : Prop := forall e n, In e es -> (line e = Some n \/ column e = Some n) -> n < 1000000000.
Lemma in_errors max collect pe te : forall e, In e (document_errors E line column max collect pe te) -> In e (pe ++ te).
Proof.
  intros e. unfold document_errors. rewrite !(emit_all_firstn E line column). assert (F : forall n l, In e (firstn n l) -> In e l) by (intros n l I; rewrite <- (firstn_skipn n l); apply in_or_app; left; exact I). destruct collect.
  - intros I. apply (Permutation_in _ (sorted_perm E line column _)) in I. apply in_app_or in I as [I|I]; apply in_or_app; [left|right]; eapply F; exact I.
  - intros I. apply in_or_app. right. eapply F. exact I.
Qed.
(* at most max_errors, the first ones of the parser and then the first ones of the transforms *)
Theorem C48_bounded : forall max collect pe te, (List.length (document_errors E line column max collect pe te) <= max)%nat.
Proof.
  intros max collect pe te. unfold document_errors. destruct collect.
  - rewrite (Permutation_length (sorted_perm E line column _)), app_length, !(emit_all_firstn E line column), !firstn_length. lia.
  - rewrite (emit_all_firstn E line column), firstn_length. cbn [List.length]. lia.
Qed.
Theorem C48_nothing_lost : forall max pe te, Permutation (document_errors E line column max true pe te) (firstn max (pe ++ te)).
Proof.
  intros max pe te. unfold document_errors. rewrite (sorted_perm E line column), !(emit_all_firstn E line column), firstn_app, firstn_length. replace (max - Nat.min max (List.length pe))%nat with (max - List.length pe)%nat by lia. reflexivity.
Qed.
Theorem C48_sorted : forall max pe te, realistic (pe ++ te) -> StronglySorted (fun a b => not_after (at_ a) (at_ b)) (document_errors E line column max true pe te).
Proof.
  intros max pe te R. pose proof (in_errors max true pe te) as I. unfold document_errors in *. eapply strengthen; [apply sorted_pos|]. intros a b Ia Ib K. pose proof (R a) as Ra. pose proof (R b) as Rb. specialize (fun n => Ra n (I a Ia)). specialize (fun n => Rb n (I b Ib)). clear - K Ra Rb.
  unfold pos_le in K. unfold not_after, at_, opt_lt. cbn [fst snd]. destruct (line a) as [la|], (line b) as [lb|]; cbn [key_part] in *.
  - destruct K as [K|[K1 K2]]; [left; exact K|right]. split; [congruence|]. destruct (column a) as [ca|], (column b) as [cb|]; cbn [key_part] in *; [assert (ca < cb \/ ca = cb) as [| ->] by lia; auto|left; exact Logic.I| |right; reflexivity]. specialize (Rb cb (or_intror eq_refl)). lia.
  - left. exact Logic.I.
  - specialize (Rb lb (or_introl eq_refl)). lia.
  - right. split; [reflexivity|]. destruct K as [K|[_ K2]]; [lia|]. destruct (column a) as [ca|], (column b) as [cb|]; cbn [key_part] in *; [assert (ca < cb \/ ca = cb) as [| ->] by lia; auto|left; exact Logic.I| |right; reflexivity]. specialize (Rb cb (or_intror eq_refl)). lia.
Qed.
(* errors at the same position stay in the order in which they were reported *)
Theorem C48_stable : forall max pe te p, realistic (pe ++ te) -> (forall n, fst p = Some n \/ snd p = Some n -> n < 1000000000) ->
  filter (fun e => same_pos (at_ e) p) (document_errors E line column max true pe te) = filter (fun e => same_pos (at_ e) p) (firstn max (pe ++ te)).
Proof.
  intros max pe te [l c] R Rp. cbn [fst snd] in Rp. pose proof (in_errors max true pe te) as I.
  assert (FE : forall (f g : E -> bool) es, (forall e, In e es -> f e = g e) -> filter f es = filter g es).
  { clear. intros f g es. induction es as [|e es IH]; intros H; [reflexivity|]. cbn [filter]. rewrite (H e (or_introl eq_refl)), IH; [reflexivity|]. intros x J. apply H. right. exact J. }
  assert (K : forall e, In e (pe ++ te) -> same_pos (at_ e) (l, c) = ((key_part (line e) =? key_part l) && (key_part (column e) =? key_part c))).
  { intros e Ie. pose proof (fun n => R e n Ie) as Re. clear - Re Rp. unfold same_pos, at_, opt_eqb. cbn [fst snd].
    assert (G : forall x y, (forall n, x = Some n -> n < 1000000000) -> (forall n, y = Some n -> n < 1000000000) -> match x with Some a => match y with Some b => a =? b | None => false end | None => match y with Some _ => false | None => true end end = (key_part x =? key_part y)).
    { intros [a|] [b|] Hx Hy; cbn [key_part]; [reflexivity|specialize (Hx a eq_refl); lia|specialize (Hy b eq_refl); lia|reflexivity]. }
    f_equal; apply G; auto. }
  rewrite (FE _ _ _ (fun e J => K e (I e J))). assert (K2 : forall e, In e (firstn max (pe ++ te)) -> same_pos (at_ e) (l, c) = ((key_part (line e) =? key_part l) && (key_part (column e) =? key_part c))) by (intros e J; apply K; rewrite <- (firstn_skipn max); apply in_or_app; left; exact J).
  rewrite (FE _ _ _ K2). unfold document_errors. rewrite sorted_stable. f_equal. rewrite !(emit_all_firstn E line column), firstn_app, firstn_length. do 2 f_equal. lia.
Qed.
End C48.
Print Assumptions C48_bounded.
Print Assumptions C48_nothing_lost.
Print Assumptions C48_sorted.
Print Assumptions C48_stable.
Example C48_example :
  let err l c (m : nat) := (l, c, m) in
  document_errors (option N * option N * nat) (fun e => fst (fst e)) (fun e => snd (fst e)) 5 true
    [err (Some 2) (Some 1) 1%nat; err (Some 1) (Some 9) 2%nat; err None None 3%nat] [err (Some 2) (Some 1) 4%nat; err (Some 1) (Some 1) 5%nat; err (Some 1) (Some 1) 6%nat] =
  [err (Some 1) (Some 1) 5%nat; err (Some 1) (Some 9) 2%nat; err (Some 2) (Some 1) 1%nat; err (Some 2) (Some 1) 4%nat; err None None 3%nat].
Proof. vm_compute. reflexivity. Qed.

(* ---------- C49 ---------- *)
(* the search always ends *)
Theorem C49_terminates : forall p t, glob_match p t <> None.
Proof. intros p t. destruct (glob_total p t) as [b ->]. discriminate. Qed.
Print Assumptions C49_terminates.
Theorem C49_sound : forall p t, glob_match p t = Some true -> glob p t.
Proof. exact match_sound. Qed.
Print Assumptions C49_sound.
(* names without a literal star *)
Theorem C49_exact_partial : forall p t, ~ In 42 t -> (glob_match p t = Some true <-> glob p t).
Proof. intros p t NS. split; [apply match_sound|apply match_complete; exact NS]. Qed.
Print Assumptions C49_exact_partial.
(* a star in the name is taken literally first and never again as a wildcard: the pattern a* does not match the name a*b *)
Theorem C49_star_in_name_refuted : glob (u "a*") (u "a*b") /\ glob_match (u "a*") (u "a*b") = Some false.
Proof. split; [|vm_compute; reflexivity]. apply (G_char (u "*") 97 (u "*b")); [discriminate|discriminate|]. apply glob_all. Qed.
Print Assumptions C49_star_in_name_refuted.
(* DropAttrs removes exactly the matching attributes.  Attributes as the parser makes them: lower case, distinct, not blank. *)
Theorem C49_drop_attrs_partial : forall (V : Type) patterns (attrs : list (str * V)), NoDup (map fst attrs) ->
  (forall kv, In kv attrs -> lower (fst kv) = fst kv /\ strip (fst kv) <> [] /\ ~ In 42 (fst kv)) ->
  exists keep : str -> bool, (forall k, ~ In 42 k -> (keep k = true <-> ~ exists p, In p patterns /\ glob p k)) /\
    match drop_attrs patterns attrs with Some r => r | None => attrs end = filter (fun kv => keep (fst kv)) attrs.
Proof.
  intros V ps attrs ND H. apply drop_filter; [exact ND|]. intros kv I. destruct (H kv I) as (A & B & C). split; [exact A|]. split; [|exact C]. unfold blank. destruct (strip (fst kv)); [contradiction|reflexivity].
Qed.
Print Assumptions C49_drop_attrs_partial.
(* the default patterns, whatever the name *)
Theorem C49_default_patterns : forall k, unsafe_key k = true <-> exists p, In p [u "*:*"; u "on*"; u "srcdoc"] /\ glob p k.
Proof. exact unsafe_key_spec. Qed.
Print Assumptions C49_default_patterns.
(* a blank name (only Unicode white space) is kept by patterns that match it *)
Theorem C49_blank_name_refuted : glob (u "*") [160] /\ drop_attrs [u "*"] [([160], tt)] = None.
Proof. split; [apply glob_all|vm_compute; reflexivity]. Qed.
Print Assumptions C49_blank_name_refuted.
Example C49_example : glob_match (u "d?ta-*-x") (u "data-ab-xx-x") = Some true /\ glob_match (u "d?ta-*-x") (u "data-ab-xx") = Some false /\
  drop_attrs [u "data-*"; u "id"] [(u "class", 1); (u "data-x", 2); (u "id", 3); (u "ids", 4)] = Some [(u "class", 1); (u "ids", 4)] /\
  drop_attrs [u "*:*"; u "on*"; u "srcdoc"] [(u "onclick", 1); (u "xlink:href", 2); (u "non", 3)] = Some [(u "non", 3)].
Proof. vm_compute. repeat split. Qed.

(* ---------- C50 ---------- *)
(* CollapseWhitespace on a text: every maximal run of HTML white space becomes one space *)
Theorem C50_collapse : forall text, squeezed text (collapse_spaces text).
Proof. intros text. rewrite collapse_is_loop. apply (loop_squeezed (List.length text)). lia. Qed.
Print Assumptions C50_collapse.
Theorem C50_collapse_idempotent : forall text, collapse_spaces (collapse_spaces text) = collapse_spaces text.
Proof. intros text. rewrite !collapse_is_loop. apply loop_idem. Qed.
Print Assumptions C50_collapse_idempotent.
Theorem C50_collapse_content : forall text,
  filter (fun c => negb (is_html_space c)) (collapse_spaces text) = filter (fun c => negb (is_html_space c)) text /\
  forall x c d y, collapse_spaces text = (x ++ c :: d :: y)%list -> is_html_space c = true -> c = 32 /\ is_html_space d = false.
Proof.
  intros text. rewrite collapse_is_loop. split; [apply loop_keeps|]. intros x c d y E H. destruct (loop_out text false) as (A & B & _). split; [|exact (B _ _ _ _ E H)]. apply A; [|exact H]. rewrite E. apply in_or_app. right. left. reflexivity.
Qed.
Print Assumptions C50_collapse_content.
(* pretty printing: the words of the text, with one space between.  Texts whose only white space is HTML white space (or that contain U+000B) *)
Theorem C50_pretty_partial : forall text ws, words text ws -> (In 11 text \/ forall c, In c text -> is_space c = true -> is_html_space c = true) -> collapse_html text = join (u " ") ws.
Proof. exact collapse_html_words. Qed.
Print Assumptions C50_pretty_partial.
Theorem C50_words_exist : forall text, exists ws, words text ws /\ forall ws', words text ws' -> ws' = ws.
Proof. intros text. destruct (words_total (List.length text) text) as (ws & W); [lia|]. exists ws. split; [exact W|]. intros ws' W'. exact (words_unique _ _ _ W' W). Qed.
Print Assumptions C50_words_exist.
Theorem C50_pretty_idempotent_partial : forall text, (In 11 text \/ forall c, In c text -> is_space c = true -> is_html_space c = true) -> collapse_html (collapse_html text) = collapse_html text.
Proof.
  intros text H. destruct (words_total (List.length text) text) as (ws & W); [lia|]. rewrite (collapse_html_words _ _ W H). pose proof (words_ok _ _ W) as OK. apply collapse_html_words; [apply words_join; exact OK|].
  destruct H as [H|H].
  - left. (* U+000B is in some word *) assert (X : exists w, In w ws /\ In 11 w). { clear OK. induction W as [s A|a w s ws A Nw N0 Sp W IH]; [specialize (A 11 H); discriminate A|]. apply in_app_or in H as [H|H]; [specialize (A 11 H); discriminate A|]. apply in_app_or in H as [H|H]; [exists w; split; [left; reflexivity|exact H]|]. destruct (IH H) as (w' & I & J). exists w'. split; [right; exact I|exact J]. }
    destruct X as (w & I & J). clear - I J. induction ws as [|x ws IH]; [destruct I|]. destruct ws as [|y ws]; [destruct I as [<-|[]]; exact J|]. change (join [32] (x :: y :: ws)) with (x ++ [32] ++ join [32] (y :: ws)). apply in_or_app. destruct I as [<-|I]; [left; exact J|right; right; exact (IH I)].
  - right. intros c I Sp. apply join_In in I as [->|(w & I & J)]; [reflexivity|]. apply H; [exact (words_In _ _ W _ _ I J)|exact Sp].
Qed.
Print Assumptions C50_pretty_idempotent_partial.
(* other Unicode spaces are not HTML white space but are collapsed too: U+00A0 becomes a space, or disappears *)
Theorem C50_nbsp_refuted : collapse_html (u "a" ++ [160] ++ u "b") = u "a b" /\ collapse_html [160] = [] /\ is_html_space 160 = false.
Proof. vm_compute. repeat split. Qed.
Print Assumptions C50_nbsp_refuted.
(* formatting white space of inline text: idempotent, keeps every other character in order, leaves none of tab, newline, form feed, return *)
Theorem C50_formatting : forall text, normalize_formatting (normalize_formatting text) = normalize_formatting text /\
  filter (fun c => negb (is_html_space c)) (normalize_formatting text) = filter (fun c => negb (is_html_space c)) text /\
  forall c, In c (normalize_formatting text) -> c <> 9 /\ c <> 10 /\ c <> 12 /\ c <> 13.
Proof.
  intros text. split; [apply normalize_idem|]. split; [apply normalize_keeps|]. intros c I. apply normalize_clean in I. unfold is_formatting in I. lia.
Qed.
Print Assumptions C50_formatting.
(* what it does to each run of white space; a space at the start (end) that comes from a formatting character is dropped *)
Theorem C50_formatting_exact : forall text, exists r, formatted text r /\
  let r1 := match text with c :: _ => if is_formatting c then cut_front r else r | [] => r end in
  normalize_formatting text = if is_formatting (last text 0) then cut_back r1 else r1.
Proof. exact normalize_formatted. Qed.
Print Assumptions C50_formatting_exact.
Example C50_example : collapse_spaces (u " a" ++ [10; 9] ++ u "b  c") = u " a b c" /\ collapse_html (u " a" ++ [10; 9] ++ u "b  c ") = u "a b c" /\ normalize_formatting ([10] ++ u "a  b" ++ [10; 32; 9] ++ u "c") = u "a  b c" /\ words (u " a b ") [u "a"; u "b"].
Proof.
  split; [vm_compute; reflexivity|]. split; [vm_compute; reflexivity|]. split; [vm_compute; reflexivity|].
  apply (W_word (u " ") (u "a") (u " b ") [u "b"]); [intros c [<-|[]]; reflexivity|discriminate|intros c [<-|[]]; reflexivity|reflexivity|].
  apply (W_word (u " ") (u "b") (u " ") []); [intros c [<-|[]]; reflexivity|discriminate|intros c [<-|[]]; reflexivity|reflexivity|]. apply W_end. intros c [<-|[]]. reflexivity.
Qed.

(* ---------- C44 ---------- *)
(* Where the standard's tokenizer does not set the force-quirks flag, the doctype is the standard's (names are lower-cased further, as Python does) *)
Theorem C44_token_partial : forall s, let k := doctype_token s in let d := fst (parse_doctype s) in t_force k = false ->
  d_name d = option_map lower (t_name k) /\ d_public d = t_public k /\ d_system d = t_system k /\ d_force d = false.
Proof. exact parse_ok. Qed.
Print Assumptions C44_token_partial.
(* and the flag is never set wrongly *)
Theorem C44_force_sound : forall s, d_force (fst (parse_doctype s)) = true -> t_force (doctype_token s) = true.
Proof. intros s H. destruct (t_force (doctype_token s)) eqn:E; [reflexivity|]. destruct (parse_ok s E) as (_ & _ & _ & F). congruence. Qed.
Print Assumptions C44_force_sound.
(* the doctype ends where the standard says, whatever its content (newlines in the rest normalised) *)
Theorem C44_extent : forall s, snd (tokenize BeforeName no_token (newlines false s)) = newlines false (snd (parse_doctype s)).
Proof. exact extent_ok. Qed.
Print Assumptions C44_extent.
(* from the source text to the mode *)
Theorem C44_mode_partial : forall s, let k := doctype_token s in let m := quirks_mode (fst (parse_doctype s)) false in
  t_force k = false -> t_system k <> Some [] -> (forall p, t_public k = Some p -> ~ prefixed (u "+//Silmaril//dtd html Pro v0r11 19970101//") p) ->
  (m = Quirks <-> is_quirks k) /\ (m = LimitedQuirks <-> ~ is_quirks k /\ is_limited k).
Proof. intros s k m F Sy Si. apply quirks_ok; [apply parse_ok; exact F|exact F|apply low_token|exact Sy|exact Si]. Qed.
Print Assumptions C44_mode_partial.
(* doctypes given as nodes (already lower-cased names) *)
Theorem C44_table_partial : forall n p sy, alow n = n -> sy <> Some [] -> (forall q, p = Some q -> ~ prefixed (u "+//Silmaril//dtd html Pro v0r11 19970101//") q) ->
  let k := {| t_name := Some n; t_public := p; t_system := sy; t_force := false |} in
  let m := quirks_mode {| d_name := Some (lower n); d_public := p; d_system := sy; d_force := false |} false in
  (m = Quirks <-> is_quirks k) /\ (m = LimitedQuirks <-> ~ is_quirks k /\ is_limited k).
Proof.
  intros n p sy L Sy Si k m. apply quirks_ok; [repeat split|reflexivity| |exact Sy|exact Si]. intros n' E. cbn [k t_name] in E. assert (n' = n) as -> by congruence. exact L.
Qed.
Print Assumptions C44_table_partial.
(* an iframe srcdoc document without the flag is never in quirks mode *)
Theorem C44_srcdoc_partial : forall s, t_force (doctype_token s) = false -> quirks_mode (fst (parse_doctype s)) true = NoQuirks.
Proof. intros s F. destruct (parse_ok s F) as (_ & _ & _ & D). unfold quirks_mode. rewrite D. reflexivity. Qed.
Print Assumptions C44_srcdoc_partial.
(* the exceptions: one prefix is missing from the table, *)
Theorem C44_missing_prefix_refuted : let s := u " html PUBLIC '+//Silmaril//dtd html Pro v0r11 19970101//EN'>" in
  is_quirks (doctype_token s) /\ quirks_mode (fst (parse_doctype s)) false = NoQuirks.
Proof.
  split; [|vm_compute; reflexivity]. do 4 right. left. exists (u "+//Silmaril//dtd html Pro v0r11 19970101//EN"), (u "+//Silmaril//dtd html Pro v0r11 19970101//"). split; [vm_compute; reflexivity|]. split; [left; vm_compute; reflexivity|]. exists (u "+//Silmaril//dtd html Pro v0r11 19970101//"), (u "EN"). split; reflexivity.
Qed.
Print Assumptions C44_missing_prefix_refuted.
(* an empty system identifier counts as missing, *)
Theorem C44_empty_system_refuted : let s := u " html PUBLIC '-//W3C//DTD HTML 4.01 Transitional//EN' ''>" in
  is_limited (doctype_token s) /\ t_force (doctype_token s) = false /\ quirks_mode (fst (parse_doctype s)) false = Quirks.
Proof.
  split; [|split; vm_compute; reflexivity]. right. exists (u "-//W3C//DTD HTML 4.01 Transitional//EN"), (u "-//W3C//DTD HTML 4.01 Transitional//"), []. split; [vm_compute; reflexivity|]. split; [vm_compute; reflexivity|]. split; [right; left; vm_compute; reflexivity|]. exists (u "-//W3C//DTD HTML 4.01 Transitional//"), (u "EN"). split; reflexivity.
Qed.
Print Assumptions C44_empty_system_refuted.
(* the force-quirks flag is lost after PUBLIC or SYSTEM, *)
Theorem C44_force_refuted : Forall (fun s => is_quirks (doctype_token s) /\ quirks_mode (fst (parse_doctype s)) false = NoQuirks)
  [u " html PUBLIC>"; u " html SYSTEM 'x>"; u " html PUBLIC 'a' b>"; u " html"].
Proof. repeat constructor; try (left; vm_compute; reflexivity); vm_compute; reflexivity. Qed.
Print Assumptions C44_force_refuted.
(* and in an iframe srcdoc document, which is never in quirks mode, the flag still forces it *)
Theorem C44_srcdoc_refuted : quirks_mode (fst (parse_doctype (u " html x>"))) true = Quirks.
Proof. vm_compute. reflexivity. Qed.
Print Assumptions C44_srcdoc_refuted.
Example C44_example : let s := u "html public ""-//w3c//dtd html 4.01 FRAMESET//"" 'x'>rest" in
  parse_doctype s = ({| d_name := Some (u "html"); d_public := Some (u "-//w3c//dtd html 4.01 FRAMESET//"); d_system := Some (u "x"); d_force := false |}, u "rest") /\
  quirks_mode (fst (parse_doctype s)) false = LimitedQuirks /\ t_force (doctype_token s) = false /\ quirks_mode (fst (parse_doctype (u " html>"))) false = NoQuirks /\ quirks_mode (fst (parse_doctype (u " xhtml>"))) false = Quirks.
Proof. vm_compute. repeat split. Qed.
