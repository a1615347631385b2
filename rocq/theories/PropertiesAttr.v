(* PROPERTIES C40, C41: the attributes of a tag.
   `run scripting 0 last state input` (HtmlTokSpec.v): the tokens the tokenizer of the HTML standard gives from that state; `newlines`: CR LF and
   CR become LF (the standard's preprocessing of the input); `refs_ok` (EntExact.v): no digit or letter outside ASCII directly follows the ASCII
   characters of a character reference; `lower`: Python's str.lower; `alow`: only A-Z. *)
From Coq Require Import Lia.
From Verif Require Import Str StrFacts EntitiesModel HtmlCharRefSpec HtmlTokSpec TokFacts EntExact RefsFacts AttrModel AttrProofs AttrFinal.
Open Scope list_scope. Open Scope N_scope.

(* what the caller passes, as tokens: a start tag, or an end tag; an unclosed tag gives no token *)
Definition tag_token (e : bool) (n : str) (attrs : list (str * str)) (self : bool) : token := if e then TEnd n else TStart n attrs self.

Lemma lower_chars k : (forall c, In c k -> lower_c c = [alow_c c]) -> lower k = alow k.
Proof. induction k as [|c k IH]; intros H; [reflexivity|]. change (lower (c :: k)) with (lower_c c ++ lower k). rewrite H by (left; reflexivity). cbn [app alow map]. f_equal. apply IH. intros x I. apply H. right. exact I. Qed.
Lemma refs_sub a p q r : refs_ok a (p ++ q ++ r) -> refs_ok a q.
Proof. intros H. apply (refs_cut a q r). intros x t E. apply (H (p ++ x) t). rewrite E, <- app_assoc. reflexivity. Qed.
Lemma value_infix s v r : read_value s = Some (v, r) -> exists p q, s = p ++ v ++ q.
Proof.
  unfold read_value. destruct (dw_suffix space s) as [a E]. destruct (drop_while space s) as [|q t]; [intros K; injection K as <- <-; exists [], s; reflexivity|]. destruct ((q =? 34) || (q =? 39)).
  - destruct (find_char q t) as [k|]; [|discriminate]. intros K. assert (v = firstn k t) as -> by congruence. exists (a ++ [q]), (skipn k t). rewrite firstn_skipn, <- app_assoc. exact E.
  - intros K. assert (v = take_while (fun c => negb (value_stop c)) (q :: t)) as -> by congruence. exists a, (drop_while (fun c => negb (value_stop c)) (q :: t)). rewrite <- drop_while_app. exact E.
Qed.
(* every raw name and raw value is a piece of the source *)
Definition piece (s x : str) : Prop := exists p q, s = p ++ x ++ q.
Lemma piece_in s x c : piece s x -> In c x -> In c s.
Proof. intros (p & q & ->) I. apply in_or_app. right. apply in_or_app. left. exact I. Qed.
Lemma piece_suffix b t x : piece t x -> piece (b ++ t) x.
Proof. intros (p & q & ->). exists (b ++ p), q. rewrite <- app_assoc. reflexivity. Qed.
Lemma piece_nil s : piece s [].
Proof. exists [], s. reflexivity. Qed.
Lemma scan_pieces eqs fuel : forall acc s k v, In (k, v) (pairs (scan eqs fuel acc s)) -> In (k, v) acc \/ (piece s k /\ piece s v).
Proof.
  induction fuel as [|fuel IH]; intros acc s k v; [intros I; left; exact I|]. cbn [scan]. destruct (dw_suffix space s) as [a0 E0]. destruct (drop_while space s) as [|ch t] eqn:D; [intros I; left; exact I|].
  assert (G : forall acc' x b, ch :: t = b ++ x -> In (k, v) (pairs (scan eqs fuel acc' x)) -> In (k, v) acc' \/ (piece s k /\ piece s v)).
  { intros acc' x b E I. destruct (IH acc' x k v I) as [K|[K1 K2]]; [left; exact K|right]. rewrite E0, E. split; apply piece_suffix, piece_suffix; assumption. }
  destruct (ch =? 62); [intros I; left; exact I|]. destruct ((ch =? 47) && starts [62] t); [intros I; left; exact I|]. destruct ((ch =? 47) || (eqs && (ch =? 61))); [apply (G acc t [ch]); reflexivity|].
  pose proof (drop_while_app (fun c => negb (name_stop c)) t) as E1. set (w := take_while (fun c => negb (name_stop c)) t) in *. set (y := drop_while (fun c => negb (name_stop c)) t) in *.
  assert (Pk : piece s (ch :: w)) by (rewrite E0; apply piece_suffix; exists [], y; cbn [app]; rewrite <- E1; reflexivity).
  assert (Ext : forall x, piece s x -> In (k, v) (acc ++ [(ch :: w, x)]) -> In (k, v) acc \/ (piece s k /\ piece s v)).
  { intros x P I. apply in_app_or in I as [I|[I|[]]]; [left; exact I|right]. injection I as <- <-. split; assumption. }
  destruct (dw_suffix space y) as [a2 E2]. destruct (drop_while space y) as [|e s2].
  - intros I. destruct (G _ [] (ch :: t) ltac:(rewrite app_nil_r; reflexivity) I) as [K|K]; [|right; exact K]. exact (Ext [] (piece_nil s) K).
  - assert (E3 : ch :: t = (ch :: w ++ a2) ++ e :: s2) by (cbn [app]; rewrite <- app_assoc, <- E2, <- E1; reflexivity).
    destruct (e =? 61).
    + destruct (read_value s2) as [[x s3]|] eqn:Rv; [|intros I; left; exact I]. destruct (read_suffix _ _ _ Rv) as [a3 E4]. intros I. destruct (G _ s3 ((ch :: w ++ a2) ++ e :: a3) ltac:(rewrite E3, E4, <- !app_assoc; reflexivity) I) as [K|K]; [|right; exact K]. apply (Ext x); [|exact K].
      rewrite E0, E3. apply piece_suffix, piece_suffix. apply (piece_suffix [e]). exact (value_infix _ _ _ Rv).
    + intros I. destruct (G _ (e :: s2) (ch :: w ++ a2) E3 I) as [K|K]; [|right; exact K]. exact (Ext [] (piece_nil s) K).
Qed.
Lemma source_fine strict s : (strict = true \/ forall c, In c s -> lower_c c = [alow_c c]) -> refs_ok true s -> Forall (fine strict) (pairs (scan_attrs false s)).
Proof.
  intros H R. apply Forall_forall. intros [k v] I. destruct (scan_pieces _ _ _ _ _ _ I) as [[]|[Pk Pv]]. split; cbn [fst snd].
  - destruct H as [H|H]; [left; exact H|right]. apply lower_chars. intros c Ic. apply H. exact (piece_in _ _ _ Pk Ic).
  - destruct Pv as (p & q & E). rewrite E in R. exact (refs_sub _ _ _ _ R).
Qed.

(* C40.  Attribute names, values, first-wins, the self-closing flag and where the tag ends are those of the standard's tokenizer, for every source after
   a tag name.  strict: the document contains a character (U+0130, U+212A) that str.lower maps into ASCII; then only A-Z are lowered.
   Missing: sources with cased letters outside ASCII when not strict, and with references directly followed by letters or digits outside ASCII. *)
Theorem C40_attributes_partial : forall scripting last strict e n s,
  (strict = true \/ forall c, In c s -> lower_c c = [alow_c c]) -> refs_ok true s ->
  exists attrs self rest closed,
    parse_all_attrs strict s = Some (attrs, self, rest, closed) /\ (exists p, s = p ++ rest) /\
    run scripting O last (BeforeAttrName (Tag e n [])) (newlines s) =
      if closed then tag_token e n attrs self :: (if e then run scripting O last Data (newlines rest) else run scripting O n (switch scripting n) (newlines rest))
      else [].
Proof.
  intros sc last strict e n s H R. destruct (attrs_ok sc last strict e n s (source_fine strict s H R)) as (attrs & P & E). do 4 eexists. split; [exact P|]. split; [apply (scan_suffix false (S (List.length s)) [] s)|]. rewrite E. destruct (tag_closed (scan_attrs false s)), e; reflexivity.
Qed.
Print Assumptions C40_attributes_partial.
(* for ASCII nothing is assumed *)
Theorem C40_ascii : forall scripting last strict e n s, (forall c, In c s -> c < 128) ->
  exists attrs self rest closed,
    parse_all_attrs strict s = Some (attrs, self, rest, closed) /\ (exists p, s = p ++ rest) /\
    run scripting O last (BeforeAttrName (Tag e n [])) (newlines s) =
      if closed then tag_token e n attrs self :: (if e then run scripting O last Data (newlines rest) else run scripting O n (switch scripting n) (newlines rest))
      else [].
Proof. intros sc last strict e n s H. apply C40_attributes_partial; [right; intros c I; apply StrFacts.lower_c_ascii, H, I|apply refs_chars; intros c I; left; apply H, I]. Qed.
Print Assumptions C40_ascii.
(* skipping the attributes of a tag finds the same end *)
Theorem C40_skip_agrees : forall strict s attrs self rest closed, parse_all_attrs strict s = Some (attrs, self, rest, closed) -> skip_attrs s = (self, rest, closed).
Proof. intros strict s attrs self rest closed. unfold parse_all_attrs, skip_attrs. destruct (store_all strict [] (pairs (scan_attrs false s))); [|discriminate]. cbn [option_map]. congruence. Qed.
Print Assumptions C40_skip_agrees.
(* a name is given once *)
Theorem C40_first_wins : forall strict s attrs self rest closed, parse_all_attrs strict s = Some (attrs, self, rest, closed) -> NoDup (map fst attrs).
Proof.
  intros strict s attrs self rest closed. unfold parse_all_attrs. destruct (store_all strict [] (pairs (scan_attrs false s))) as [d|] eqn:E; [|discriminate]. cbn [option_map]. intros K. assert (d = attrs) as -> by congruence. clear K.
  assert (G : forall ps a d, NoDup (map fst a) -> store_all strict a ps = Some d -> NoDup (map fst d)); [|apply (G _ [] _ (NoDup_nil _) E)].
  clear. induction ps as [|[k v] ps IH]; intros a d Nd E; cbn [store_all] in E; [assert (a = d) as <- by congruence; exact Nd|]. destruct (parsed_value v) as [w|]; [|discriminate E].
  destruct (has_key (fold_key strict k) a) eqn:Hk; [exact (IH _ _ Nd E)|]. refine (IH _ _ _ E). rewrite map_app. cbn [map fst]. assert (Q : ~ In (fold_key strict k) (map fst a)).
  { intros I. apply in_map_iff in I as ([k' v'] & Ek & I). cbn [fst] in Ek. subst k'. assert (has_key (fold_key strict k) a = true) by (unfold has_key; apply existsb_exists; exists (fold_key strict k, v'); split; [exact I|apply StrFacts.str_eqb_refl]). congruence. }
  clear -Nd Q. induction a as [|[x y] a IHa]; cbn [map fst app] in *; [constructor; [intros []|constructor]|]. inversion Nd; subst. constructor; [|apply IHa; [assumption|intros I; apply Q; right; exact I]]. intros I. apply in_app_or in I as [I|[I|[]]]; [contradiction|]. apply Q. left. congruence.
Qed.
Print Assumptions C40_first_wins.
Local Definition src := u " HREF='a&amp;b' x = y/ href=2 / =z>rest".
Example C40_example : parse_all_attrs false src = Some ([(u "href", u "a&b"); (u "x", u "y/"); (u "=z", [])], false, u "rest", true) /\ refs_ok true src /\ (forall c, In c src -> c < 128) /\
  run true O [] (BeforeAttrName (Tag false (u "a") [])) (newlines src) = TStart (u "a") [(u "href", u "a&b"); (u "x", u "y/"); (u "=z", [])] false :: chars (u "rest").
Proof.
  assert (A : forall c, In c src -> c < 128) by (apply Forall_forall; unfold src; repeat constructor).
  split; [vm_compute; reflexivity|]. split; [apply refs_chars; intros c I; left; apply A, I|]. split; [exact A|]. vm_compute. reflexivity.
Qed.
Example C40_unicode : (forall c, In c (u " t='" ++ [233; 26085] ++ u "&amp;'>")%list -> lower_c c = [alow_c c]) /\ parse_all_attrs false (u " t='" ++ [233; 26085] ++ u "&amp;'>")%list = Some ([(u "t", [233; 26085] ++ u "&")], false, [], true)%list.
Proof. split; [apply Forall_forall; repeat constructor; vm_compute; reflexivity|vm_compute; reflexivity]. Qed.
(* E acute and e acute are two names; the parser takes them for one *)
Theorem C40_case_refuted : exists s attrs toks, parse_all_attrs false s = Some (attrs, false, [], true) /\ run true O [] (BeforeAttrName (Tag false (u "a") [])) (newlines s) = [TStart (u "a") toks false] /\ attrs <> toks.
Proof. exists (32 :: 201 :: u "=1 " ++ 233 :: u "=2>")%list. do 2 eexists. split; [vm_compute; reflexivity|]. split; [vm_compute; reflexivity|]. intros K. discriminate K. Qed.
Print Assumptions C40_case_refuted.
Theorem C40_reference_refuted : exists s attrs toks, parse_all_attrs true s = Some (attrs, false, [], true) /\ run true O [] (BeforeAttrName (Tag false (u "a") [])) (newlines s) = [TStart (u "a") toks false] /\ attrs <> toks.
Proof. exists (u " t='&lt" ++ 233 :: u "'>")%list. do 2 eexists. split; [vm_compute; reflexivity|]. split; [vm_compute; reflexivity|]. intros K. discriminate K. Qed.
Print Assumptions C40_reference_refuted.
Theorem C40_raises_refuted : exists s, parse_all_attrs true s = None.
Proof. exists (u " t='&#" ++ 178 :: u ";'>")%list. vm_compute. reflexivity. Qed.
Print Assumptions C40_raises_refuted.

(* C41.  The parser that reads and sanitizes in one pass against reading everything and then sanitizing: for a closed tag whose names differ, no name
   of which starts with =, and whose values contain neither CR nor NUL.  Attributes not allowed that are kept for the parser's own use do not count
   (they are removed before the element is built).  stable: the allowed names are lower case. *)
Definition of_output (a : action) (d : list (str * str)) : list (str * str) := filter (fun p => in_strs (fst p) (allowed a)) d.
Theorem C41_fused_partial : forall strict strip a s attrs self rest,
  (forall x, In x (allowed a) -> fold_key strict x = x) ->
  parse_all_attrs strict s = Some (attrs, self, rest, true) ->
  (forall k v, In (k, v) (pairs (scan_attrs false s)) -> starts [61] k = false /\ ~ In 13 v /\ ~ In 0 v) ->
  NoDup (map (fun p => fold_key strict (fst p)) (pairs (scan_attrs false s))) ->
  exists d, parse_attrs_for_action strict strip a s = Some (d, self, rest, true) /\ of_output a d = sanitize_parsed strip a attrs.
Proof.
  intros strict strip a s attrs self rest St P Hp Nd. unfold parse_all_attrs in P. destruct (store_all strict [] (pairs (scan_attrs false s))) as [all|] eqn:E; [|discriminate P]. cbn [option_map] in P. injection P as -> <- <- C.
  destruct (fused_agrees strict strip a St (pairs (scan_attrs false s)) [] [] attrs ltac:(intros k []) Nd (fun k v I => proj2 (Hp k v I)) eq_refl E) as (d & F & O). exists d. split; [|exact O].
  unfold parse_attrs_for_action. assert (Q : scan_attrs true s = scan_attrs false s) by (apply scan_equal; [intros k v I; apply (Hp k v I)|exact C]). rewrite Q, F. cbn [option_map]. rewrite C. reflexivity.
Qed.
Print Assumptions C41_fused_partial.
(* unconditionally: every attribute given has an allowed name and a value its URL rule returned, or it is one kept for the parser's own use *)
Theorem C41_safe : forall strict strip a s d self rest closed, parse_attrs_for_action strict strip a s = Some (d, self, rest, closed) ->
  forall k v, In (k, v) d -> (In k (allowed a) /\ exists w, url a k w = Some v) \/ (~ In k (allowed a) /\ (preserve_state a = true \/ In k (state_attrs a))).
Proof.
  intros strict strip a s d self rest closed. unfold parse_attrs_for_action. destruct (fused_store strict strip a [] (pairs (scan_attrs true s))) as [x|] eqn:E; [|discriminate]. cbn [option_map]. intros K k v I. assert (x = d) as -> by congruence. destruct (fused_safe _ _ _ _ _ _ E k v I) as [[]|K']. exact K'.
Qed.
Print Assumptions C41_safe.
(* ... and the output is the same or not, the rest is a rest of the source *)
Theorem C41_rest_is_suffix : forall strict strip a s d self rest closed, parse_attrs_for_action strict strip a s = Some (d, self, rest, closed) -> exists p, s = p ++ rest.
Proof. intros strict strip a s d self rest closed. unfold parse_attrs_for_action. destruct (fused_store _ _ _ _ _); [|discriminate]. cbn [option_map]. intros K. assert (AttrModel.rest (scan_attrs true s) = rest) as <- by congruence. apply (scan_suffix true (S (List.length s)) [] s). Qed.
Print Assumptions C41_rest_is_suffix.

Local Definition act := Action [u "href"; u "title"] [u "type"] false (fun k v => if str_eqb k (u "href") then if starts (u "http") v then Some v else None else Some v).
Local Definition src2 := u " HREF=http:a&amp;b onclick='x' TYPE=t title=""a b"" />rest".
Example C41_example : (forall x, In x (allowed act) -> fold_key false x = x) /\ (forall k v, In (k, v) (pairs (scan_attrs false src2)) -> starts [61] k = false /\ ~ In 13 v /\ ~ In 0 v) /\
  NoDup (map (fun p => fold_key false (fst p)) (pairs (scan_attrs false src2))) /\
  parse_attrs_for_action false (fun v => v) act src2 = Some ([(u "href", u "http:a&b"); (u "type", u "t"); (u "title", u "a b")], true, u "rest", true) /\
  parse_all_attrs false src2 = Some ([(u "href", u "http:a&b"); (u "onclick", u "x"); (u "type", u "t"); (u "title", u "a b")], true, u "rest", true).
Proof.
  split; [intros x [<-|[<-|[]]]; reflexivity|]. split.
  { intros k v I. set (l := pairs (scan_attrs false src2)) in I. vm_compute in l. subst l. repeat (destruct I as [I|I]; [injection I as <- <-; split; [reflexivity|split; intros K; repeat (destruct K as [K|K]; [discriminate K|]); exact K]|]). destruct I. }
  split; [|split; vm_compute; reflexivity]. set (l := map _ _). vm_compute in l. subst l. repeat (constructor; [intros K; repeat (destruct K as [K|K]; [discriminate K|]); exact K|]). constructor.
Qed.
(* a second attribute of the same name replaces the first; the standard and the other path keep the first *)
Definition differ (s : str) : Prop := exists d attrs self rest self' rest' closed, parse_attrs_for_action false (fun v => v) act s = Some (d, self, rest, true) /\
  parse_all_attrs false s = Some (attrs, self', rest', closed) /\ (of_output act d <> sanitize_parsed (fun v => v) act attrs \/ closed = false).
Ltac witness := do 7 eexists; split; [vm_compute; reflexivity|split; [vm_compute; reflexivity|]].
Theorem C41_duplicates_refuted : differ (u " title=a title=b>").
Proof. witness. left. vm_compute. discriminate. Qed.
Print Assumptions C41_duplicates_refuted.
Theorem C41_equals_refuted : differ (u " =title=x>").
Proof. witness. left. vm_compute. discriminate. Qed.
Print Assumptions C41_equals_refuted.
Theorem C41_carriage_return_refuted : differ (u " title='" ++ 13 :: u "'>")%list.
Proof. witness. left. vm_compute. discriminate. Qed.
Print Assumptions C41_carriage_return_refuted.
Theorem C41_nul_refuted : differ (u " title='" ++ 0 :: u "'>")%list.
Proof. witness. left. vm_compute. discriminate. Qed.
Print Assumptions C41_nul_refuted.
(* a tag the standard does not see closed *)
Theorem C41_unclosed_refuted : exists d attrs, parse_attrs_for_action false (fun v => v) act (u " ==""x>") = Some (d, false, [], true) /\ parse_all_attrs false (u " ==""x>") = Some (attrs, false, [], false).
Proof. do 2 eexists. split; vm_compute; reflexivity. Qed.
Print Assumptions C41_unclosed_refuted.
