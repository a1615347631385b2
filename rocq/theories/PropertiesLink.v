(* PROPERTIES C36, C37: linkify.  [idna] is Python's host.encode("idna"), any function. *)
From Coq Require Import Lia ZifyBool ZifyN ZifyNat.
From Verif Require Import Str StrFacts EntitiesModel SerializerModel LinkModel LinkSpec LinkProofs LinkFinal.
Open Scope N_scope.

(* C36: every link is a non-empty slice text[start:end] of the text, links come in order and do not overlap, and every href has one of the five safe beginnings *)
Theorem C36_spans idna cfg text ms : find_links idna cfg text = Some ms ->
  Forall (fun l => at_offset text (l_start l) (l_text l) /\ l_text l <> [] /\ l_end l = (l_start l + List.length (l_text l))%nat /\ safe_href (l_href l)) ms /\
  ForallOrdPairs (fun a b => l_end a <= l_start b)%nat ms.
Proof. exact (find_links_ok idna candidates cfg text ms candidates_ok). Qed.
(* the same whatever finds the candidates, so it does not depend on how the regular expression is modelled *)
Theorem C36_spans_any_finder idna cands cfg text ms : (forall t, Forall (fun p => fst p <= List.length t)%nat (cands t)) -> find_links_by idna cands cfg text = Some ms ->
  Forall (fun l => at_offset text (l_start l) (l_text l) /\ l_text l <> [] /\ l_end l = (l_start l + List.length (l_text l))%nat /\ safe_href (l_href l)) ms /\
  ForallOrdPairs (fun a b => l_end a <= l_start b)%nat ms.
Proof. exact (find_links_ok idna cands cfg text ms). Qed.
(* C36: a link starts the text or follows a character that is no ASCII letter, digit or underscore; it contains no white space, < or > *)
Theorem C36_surroundings idna cfg text ms : find_links idna cfg text = Some ms ->
  Forall (fun l => (l_start l = O \/ exists c, nth_error text (l_start l - 1) = Some c /\ is_alnum_ascii c = false /\ c <> 95) /\
                   forall c, In c (l_text l) -> is_space c = false /\ c <> 60 /\ c <> 62) ms.
Proof.
  intros H. pose proof (find_links_placed idna cfg text ms H) as P. eapply Forall_impl; [|exact P]. intros l [A B]. split.
  - destruct A as [A|(c & A1 & A2)]; [left; exact A|right; exists c]. unfold word_char in A2. apply orb_false_iff in A2. destruct A2 as [A2 A3]. split; [exact A1|]. split; [exact A2|lia].
  - intros c I. rewrite forallb_forall in B. specialize (B c I). unfold body in B. destruct (is_space c); [discriminate B|]. split; [reflexivity|lia].
Qed.
(* C36: a link that was not written with a scheme, // or www. has a known top level domain, or is a dotted quad and fuzzy_ip is on *)
Theorem C36_fuzzy idna cfg text ms : find_links idna cfg text = Some ms ->
  Forall (fun l =>
    (exists p, In p [u "http://"; u "https://"; u "ftp://"; u "mailto:"; u "//"; u "www."] /\ begins_ci p (l_text l)) \/
    has_tld (fun t => In (lower t) default_tlds \/ In (lower t) (extra_tlds cfg) \/ (exists r, lower t = u "xn--" ++ r) \/ is_cc (lower t) = true) (link_host (l_text l)) \/
    fuzzy_ip cfg = true /\ dotted_quad (py_int false 0) (link_host (l_text l))) ms.
Proof.
  intros H. pose proof (find_links_shape idna cfg text ms H) as P. eapply Forall_impl; [|exact P]. intros l [A|[A|A]]; [left; exact A| |right; right; exact A]. right. left.
  destruct A as (pre & base & tld & post & E & K & NI & NE). exists pre, base, tld, post. repeat split; [exact E| |exact NI|exact NE].
  unfold known_tld, valid_tld in K. destruct (lower tld) as [|c t] eqn:L; [discriminate K|]. remember (c :: t) as lt eqn:Lt. clear Lt L. apply orb_prop in K. destruct K as [K|K].
  - apply orb_prop in K. destruct K as [K|K]; [|left; apply in_strs_In; exact K]. apply orb_prop in K. destruct K as [K|K]; [right; right; right; exact K|]. apply starts_spec in K. right. right. left. exact K.
  - right. left. apply in_strs_In. exact K.
Qed.
(* C36: a link does not end in a closing bracket that has no opening partner in it *)
Theorem C36_brackets idna cfg text ms l w c o : find_links idna cfg text = Some ms -> In l ms -> l_text l = w ++ [c] -> In (o, c) [(40, 41); (91, 93); (123, 125); (60, 62)] ->
  (count_occ N.eq_dec (l_text l) c <= count_occ N.eq_dec (l_text l) o)%nat.
Proof.
  intros H I E P. pose proof (find_links_closed idna candidates cfg text ms H) as F. rewrite Forall_forall in F. apply (F l I w c o E). cbn [In] in P. destruct P as [P|[P|[P|[P|[]]]]]; injection P as <- <-; reflexivity.
Qed.
(* C36: the href is the text of the link, with http:// or mailto: in front when it has no scheme (host names IDNA leaves alone; no user name or port) *)
Theorem C36_href idna cfg text ms l : (forall h, idna h = None \/ idna h = Some h) -> find_links idna cfg text = Some ms -> In l ms ->
  (begins_ci (u "mailto:") (l_text l) -> l_href l = l_text l /\ l_email l = true) /\
  (~ (exists p, In p [u "http://"; u "https://"; u "ftp://"; u "mailto:"; u "//"; u "www."] /\ begins_ci p (l_text l)) -> In 64 (l_text l) -> l_href l = u "mailto:" ++ l_text l /\ l_email l = true) /\
  (forall p a rest, In p [u "http://"; u "https://"; u "ftp://"; u "//"] -> l_text l = a ++ rest -> alow a = p -> ~ In 64 (host_of rest) -> ~ In 58 (host_of rest) -> l_href l = l_text l /\ l_email l = false) /\
  (~ (exists p, In p [u "http://"; u "https://"; u "ftp://"; u "mailto:"; u "//"] /\ begins_ci p (l_text l)) -> ~ In 64 (l_text l) -> ~ In 58 (l_text l) -> l_href l = u "http://" ++ l_text l /\ l_email l = false).
Proof.
  intros ID H I. pose proof (find_links_href idna candidates cfg text ms H) as F. rewrite Forall_forall in F. destruct (F l I) as [Eh Em]. rewrite Eh, Em. clear Eh Em F H I. set (t := l_text l). clearbody t. clear l.
  assert (St : forall p, forallb (fun c => c <? 128) p = true -> begins_ci p t -> starts p (lower t) = true) by (intros p A (a & r & -> & Ea); exact (starts_lower_app a r p Ea A)).
  assert (Nt : forall ps, forallb plain_prefix ps = true -> ~ (exists p, In p ps /\ begins_ci p t) -> starts_any ps (lower t) = false).
  { intros ps A Nx. destruct (starts_any ps (lower t)) eqn:Q; [|reflexivity]. exfalso. apply Nx. destruct (starts_any_inv ps t A Q) as (p & a & r & Ip & E & _ & Ea). exists p. split; [exact Ip|]. exists a, r. split; assumption. }
  assert (Mail : forall s, starts (u "mailto:") (lower s) = true -> punycode_href idna s = s) by (intros s Q; unfold punycode_href; rewrite Q; reflexivity).
  unfold href_for. split; [|split; [|split]].
  - intros B. rewrite (St (u "mailto:") eq_refl B). cbn [fst snd]. split; [|reflexivity]. apply Mail. exact (St (u "mailto:") eq_refl B).
  - intros B M. pose proof (Nt [u "http://"; u "https://"; u "ftp://"; u "mailto:"; u "//"; u "www."] eq_refl B) as Q. unfold starts_any in *. cbn [existsb] in *. rewrite !orb_false_iff in Q. destruct Q as (Q1 & Q2 & Q3 & Q4 & Q5 & Q6 & _). rewrite Q1, Q2, Q3, Q4, Q5, Q6. apply mem_In in M. rewrite M. cbn [orb negb andb fst snd]. split; [|reflexivity]. apply Mail. apply (starts_lower_app (u "mailto:") t); reflexivity.
  - intros p a rest Ip E Ea N1 N2. assert (Bt : begins_ci p t) by (exists a, rest; split; assumption). assert (Ap : forallb (fun c => c <? 128) p = true) by (cbn [In] in Ip; destruct Ip as [<-|[<-|[<-|[<-|[]]]]]; reflexivity). pose proof (St p Ap Bt) as Q.
    assert (Nm : starts (u "mailto:") (lower t) = false).
    { rewrite E, lower_app, (lower_ascii a (alow_ascii a p Ea Ap)), Ea. cbn [In] in Ip. destruct Ip as [<-|[<-|[<-|[<-|[]]]]]; reflexivity. }
    rewrite Nm. assert (A1 : starts_any [u "http://"; u "https://"; u "ftp://"; u "//"; u "www."] (lower t) = true) by (apply existsb_exists; exists p; split; [cbn [In] in *; tauto|exact Q]).
    assert (A2 : starts_any [u "http://"; u "https://"; u "ftp://"; u "//"] (lower t) = true) by (apply existsb_exists; exists p; split; [exact Ip|exact Q]). rewrite A1, A2, andb_false_r. cbn [fst snd]. split; [|reflexivity]. rewrite E. exact (punycode_same idna p a rest ID Ip Ea N1 N2).
  - intros B N1 N2. pose proof (Nt [u "http://"; u "https://"; u "ftp://"; u "mailto:"; u "//"] eq_refl B) as Q. unfold starts_any in *. cbn [existsb] in *. rewrite !orb_false_iff in Q. destruct Q as (Q1 & Q2 & Q3 & Q4 & Q5 & _). rewrite Q1, Q2, Q3, Q4, Q5. assert (M : mem 64 t = false) by (destruct (mem 64 t) eqn:M; [apply mem_In in M; contradiction|reflexivity]). rewrite M. cbn [orb negb andb fst snd]. split; [|reflexivity].
    apply (punycode_same idna (u "http://") (u "http://") t ID); [left; reflexivity|reflexivity| |]; intros Q; apply host_incl in Q; contradiction.
Qed.
(* C36: a link with a scheme has a well-formed authority: a host without underscore, not beginning or ending in - or dot, and a port up to 65535 *)
Theorem C36_authority idna cfg text ms l p a rest : find_links idna cfg text = Some ms -> In l ms -> In p [u "http://"; u "https://"; u "ftp://"] -> l_text l = a ++ rest -> alow a = p ->
  good_authority (take_while (fun c => negb (mem c (u "/?#"))) rest) \/ exists w r, take_while (fun c => negb (mem c (u "/?#"))) rest = w ++ u "[" ++ r.
Proof.
  intros H I Ip E Ea. pose proof (find_links_authority idna candidates cfg text ms H) as F. rewrite Forall_forall in F. exact (F l I p a rest Ip E Ea).
Qed.
(* C36: no accepted candidate is lost, except to an overlapping link that starts no later *)
Theorem C36_maximal idna cfg text ms p l : find_links idna cfg text = Some ms -> text <> [] -> In p (candidates text) -> one_candidate idna cfg text p = FLink l ->
  In l ms \/ exists m, In m ms /\ (l_start m <= l_start l < l_end m)%nat.
Proof. intros H NE I E. exact (find_links_maximal idna candidates cfg text ms candidates_ok H p l I NE E). Qed.
(* C36: no exception, unless the text has a character that is a digit for Python but has no decimal value *)
Theorem C36_never_raises_partial idna cfg text : (forall c, In c text -> is_digit c = true -> is_decimal c = true) -> find_links idna cfg text <> None.
Proof.
  intros H. apply no_raise; [exact candidates_ok|]. intros c I. unfold odd_digit. specialize (H c I). destruct (is_digit c); [rewrite H; reflexivity|reflexivity].
Qed.
(* such a text: 1.2.3.(superscript two).  int() raises ValueError *)
Theorem C36_never_raises_refuted : exists text, forall idna cfg, find_links idna cfg text = None.
Proof. exists (u "1.2.3." ++ [178]). intros idna cfg. vm_compute. reflexivity. Qed.

(* C37: the pieces a text node is split into have the text of the node in total *)
Theorem C37_pieces idna cfg text ms : find_links idna cfg text = Some ms -> flat_map (fun p => match p with PText t => t | PLink _ t => t end) (parts text O ms) = text.
Proof. exact (parts_whole idna candidates cfg text ms candidates_ok). Qed.
(* C37: and its links are the links found, in order *)
Theorem C37_links text ms : forall cursor, flat_map (fun p => match p with PText _ => [] | PLink h t => [(h, t)] end) (parts text cursor ms) = map (fun m => (l_href m, l_text m)) ms.
Proof.
  induction ms as [|m ms IH]; intros cursor; cbn [parts]; [destruct (_ <? _)%nat; reflexivity|]. rewrite flat_map_app. cbn [flat_map map app]. rewrite IH. destruct (cursor <? l_start m)%nat; reflexivity.
Qed.
(* C37: on every tree, the transform (with a among its skip tags, as by default) ends; it changes nothing but text nodes outside skipped elements, and
   those become text and links with a single safe href, with the same text in total.  The only exception is the one above. *)
Theorem C37_tree idna cfg tags ns n : in_strs (u "a") tags = true -> forall fuel, (depth n + 2 <= fuel)%nat ->
  (exists out, walk idna candidates cfg tags fuel false ns n = LOk out /\ linkified tags n out) \/
  (walk idna candidates cfg tags fuel false ns n = LRaise /\ exists c, In c (text_of n) /\ is_digit c = true /\ is_decimal c = false).
Proof.
  intros Sk fuel D. destruct (walk_linkified idna candidates cfg tags candidates_ok Sk fuel ns n D) as [[E P]|Q]; [right|left; exact Q]. split; [exact E|].
  destruct (existsb odd_digit (text_of n)) eqn:X.
  - apply existsb_exists in X. destruct X as (c & I & O). exists c. split; [exact I|]. unfold odd_digit in O. apply andb_true_iff in O. destruct O as [O1 O2]. apply negb_true_iff in O2. split; assumption.
  - exfalso. apply P. intros c I. destruct (odd_digit c) eqn:O; [|reflexivity]. assert (existsb odd_digit (text_of n) = true) by (apply existsb_exists; exists c; split; assumption). congruence.
Qed.
(* C37: hence the text of the tree is unchanged (template contents apart, which text_of lists after the children) *)
Theorem C37_text_kept tags : forall n out, linkified tags n out -> flat_map text_of out = text_of n.
Proof.
  fix F 3. intros n out H. destruct H as [d out E _|d|d|d|c cs H|name ns attrs c tc Sn|name ns attrs c cs Sn H|name ns attrs c tc cs ts Sn H H2].
  - exact E.
  - reflexivity.
  - reflexivity.
  - reflexivity.
  - cbn [flat_map text_of]. rewrite app_nil_r. induction H as [|x y l l' H0 H IH]; [reflexivity|]. cbn [List.concat flat_map]. rewrite flat_map_app, IH, (F _ _ H0). reflexivity.
  - cbn [flat_map]. apply app_nil_r.
  - cbn [flat_map text_of]. rewrite !app_nil_r. induction H as [|x y l l' H0 H IH]; [reflexivity|]. cbn [List.concat flat_map]. rewrite flat_map_app, IH, (F _ _ H0). reflexivity.
  - cbn [flat_map text_of]. rewrite !app_nil_r. f_equal.
    + clear H2. induction H as [|x y l l' H0 H IH]; [reflexivity|]. cbn [List.concat flat_map]. rewrite flat_map_app, IH, (F _ _ H0). reflexivity.
    + clear H. induction H2 as [|x y l l' H0 H2 IH]; [reflexivity|]. cbn [List.concat flat_map]. rewrite flat_map_app, IH, (F _ _ H0). reflexivity.
Qed.
(* C37: text inside skipped elements is left alone *)
Theorem C37_skipped idna cfg tags ns name ns' attrs c tc fuel : in_strs (lower name) tags = true -> (depth (NElem name ns' attrs c tc) < fuel)%nat ->
  walk idna candidates cfg tags fuel false ns (NElem name ns' attrs c tc) = LOk [NElem name ns' attrs c tc].
Proof.
  intros Sn D. destruct fuel as [|k]; [lia|]. cbn [walk orb]. rewrite Sn. pose proof (walk_skip idna candidates cfg tags (S k) ns (NElem name ns' attrs c tc) D) as Q. cbn [walk orb] in Q. exact Q.
Qed.
(* C37, finding: Linkify(skip_tags=...) without a never ends: the text inside each new link is linkified again *)
Theorem C37_skip_tags_refuted tags : in_strs (u "a") tags = false -> exists text, forall idna cfg ns fuel, walk idna candidates cfg tags fuel false ns (NText text) = LFuel.
Proof. intros Sk. exists (u "a.com"). intros idna cfg ns fuel. exact (endless idna cfg tags Sk fuel ns). Qed.

Print Assumptions C36_spans.
Print Assumptions C36_spans_any_finder.
Print Assumptions C36_surroundings.
Print Assumptions C36_fuzzy.
Print Assumptions C36_maximal.
Print Assumptions C36_authority.
Print Assumptions C36_brackets.
Print Assumptions C36_href.
Print Assumptions C36_never_raises_partial.
Print Assumptions C36_never_raises_refuted.
Print Assumptions C37_pieces.
Print Assumptions C37_links.
Print Assumptions C37_tree.
Print Assumptions C37_text_kept.
Print Assumptions C37_skipped.
Print Assumptions C37_skip_tags_refuted.

(* the hypotheses are met *)
Definition cfg0 := Config false [].
Example C36_ex : find_links (fun h => Some h) cfg0 (u "see (http://x.org/a_(b)), me@y.com, 1.2.3.4 and www.z.") =
  Some [Link 5 23 (u "http://x.org/a_(b)") (u "http://x.org/a_(b)") false; Link 26 34 (u "me@y.com") (u "mailto:me@y.com") true; Link 48 53 (u "www.z") (u "http://www.z") false].
Proof. vm_compute. reflexivity. Qed.
Example C37_ex : walk (fun h => Some h) candidates cfg0 default_skip_tags 4 false None (NElem (u "p") (Some (u "html")) [] [NText (u "go a.com!"); NElem (u "code") (Some (u "html")) [] [NText (u "b.com")] None] None) =
  LOk [NElem (u "p") (Some (u "html")) [] [NText (u "go "); NElem (u "a") (Some (u "html")) [(u "href", Some (u "http://a.com"))] [NText (u "a.com")] None; NText (u "!");
       NElem (u "code") (Some (u "html")) [] [NText (u "b.com")] None] None].
Proof. vm_compute. reflexivity. Qed.
