(* PROPERTY C75: the tables the default sanitizing engine works from say the same as the policy.
   Read with ActionModel.v (the engine: `plan_action p scripting t`, the table entry of a tag; `sanitize_parsed_attrs`, what it makes of the
   attributes read from a tag), SanModel.v (the sanitizer that works on a parsed tree: `strip_attrs`, then `edit_attrs`, the transforms of the policy
   that change the attributes of one element) and UrlSpec.v (how a browser reads a URL). *)
From Coq Require Import NArith List Bool String Lia.
From Verif Require Import Str StrFacts UrlSpec SerializerModel UrlModel SanModel SanSpec SanFacts SanDefaults GuardModel SkipModel AttrModel AttrProofs AttrFinal ActionModel ActionProofs.
From Verif Require PropertiesAttr.
Import ListNotations.
Open Scope list_scope.
Open Scope N_scope.

(* The engine and the sanitizer give a tag of the default policies the same attributes, in the same order.  Missing: URLs with a backslash, and
   URLs that begin with two slashes and contain a space; there the two differ (C75_backslash_refuted, C75_space_refuted).  `alow k = k`: attribute names
   as the parser gives them, without A-Z. *)
Theorem C75_same_attributes_partial py p scripting i t attrs :
  p = default_policy \/ p = default_document_policy -> In t (allowed_tags p) -> NoDup (map fst attrs) -> (forall k, In k (map fst attrs) -> alow k = k) ->
  (forall k v, In (k, v) attrs -> k = u "href" \/ k = u "src" ->
     ~ In 92 (strip_invisible v) /\ (starts (u "//") (normalize_url (strip (strip_invisible v))) = true -> ~ In 32 (strip (strip_invisible v)))) ->
  exists out findings, sanitize_parsed_attrs py p (plan_action p scripting t) attrs = Some out
    /\ edit_attrs py p i t (fst (strip_attrs i (map (fun kv => (fst kv, Some (snd kv))) attrs))) = Ok (map (fun kv => (fst kv, Some (snd kv))) out) findings.
Proof. exact (same_attributes py p scripting i t attrs). Qed.

(* ... and so for the attributes of a tag in the source, read and sanitized in one pass.  Missing besides: what C41 shows the one pass to read
   differently. *)
Theorem C75_one_pass_partial py p scripting strict i t a s attrs self rest :
  p = default_policy \/ p = default_document_policy -> In t (allowed_tags p) -> plan_action p scripting t = Some a ->
  parse_all_attrs strict s = Some (attrs, self, rest, true) ->
  (forall k v, In (k, v) (pairs (scan_attrs false s)) -> starts [61] k = false /\ ~ In 13 v /\ ~ In 0 v) ->
  NoDup (map (fun x => fold_key strict (fst x)) (pairs (scan_attrs false s))) ->
  (forall k v, In (k, v) attrs -> k = u "href" \/ k = u "src" ->
     ~ In 92 (strip_invisible v) /\ (starts (u "//") (normalize_url (strip (strip_invisible v))) = true -> ~ In 32 (strip (strip_invisible v)))) ->
  exists d findings, parse_attrs_for_action strict (visible p) (reading py p a) s = Some (d, self, rest, true)
    /\ edit_attrs py p i t (fst (strip_attrs i (map (fun kv => (fst kv, Some (snd kv))) attrs)))
       = Ok (map (fun kv => (fst kv, Some (snd kv))) (filter (fun kv => in_strs (fst kv) (a_attrs a)) d)) findings.
Proof.
  intros D T A P H ND U. rewrite (known_allowed p scripting t T) in A. injection A as <-.
  destruct (PropertiesAttr.C41_fused_partial strict (visible p) (reading py p (compile_action p scripting t)) s attrs self rest) as (d & F & O);
    [|exact P|exact H|exact ND|].
  { intros x X. change (AttrModel.allowed (reading py p (compile_action p scripting t))) with (a_attrs (compile_action p scripting t)) in X.
    unfold compile_action in X. cbn [a_attrs] in X. exact (names_stable p t strict x D T X). }
  assert (FK : forall k, In k (map fst attrs) -> alow k = k).
  { unfold parse_all_attrs in P. destruct (store_all strict [] (pairs (scan_attrs false s))) as [all|] eqn:E; [|discriminate P]. cbn [option_map] in P.
    assert (all = attrs) as -> by congruence. clear -E.
    assert (G : forall ps acc d, (forall k, In k (map fst acc) -> alow k = k) -> store_all strict acc ps = Some d -> forall k, In k (map fst d) -> alow k = k);
      [|exact (G _ [] _ ltac:(intros k []) E)].
    clear. induction ps as [|[k v] ps IH]; intros acc d Ha E; cbn [store_all] in E; [injection E as <-; exact Ha|]. destruct (parsed_value v) as [w|]; [|discriminate E].
    refine (IH _ _ _ E). destruct (has_key (fold_key strict k) acc); [exact Ha|]. intros x X. rewrite map_app in X. apply in_app_or in X as [X|[X|[]]]; [exact (Ha x X)|].
    cbn [fst] in X. subst x. apply alow_fold. }
  destruct (same_attributes py p scripting i t attrs D T (PropertiesAttr.C40_first_wins _ _ _ _ _ _ P) FK U) as (out & fs & S1 & S2).
  exists d, fs. split; [exact F|]. etransitivity; [exact S2|]. f_equal. unfold somes. f_equal.
  change (PropertiesAttr.of_output (reading py p (compile_action p scripting t)) d) with (filter (fun kv => in_strs (fst kv) (a_attrs (compile_action p scripting t))) d) in O.
  rewrite O. symmetry. rewrite (known_allowed p scripting t T) in S1. unfold sanitize_parsed_attrs in S1.
  change (a_allowed (compile_action p scripting t)) with (in_strs t (allowed_tags p)) in S1.
  replace (in_strs t (allowed_tags p)) with true in S1 by (symmetry; apply in_strs_In; exact T).
  apply sanitize_fused; [|exact S1]. cbn [a_allowed compile_action]. apply in_strs_In. exact T.
Qed.

(* Whatever the attributes and their values: what is given out was given in, its name is one the policy allows for the tag, and a URL has no scheme but
   those of the policy and names no host without one. *)
Definition url_is_safe (t s : str) : Prop :=
  (forall x, browser_scheme s = Some x -> t = u "a" /\ In x (map u ["http"; "https"; "mailto"; "tel"]%string)) /\ ~ protocol_relative s.
Lemma safe_is t s : safe_url t s -> url_is_safe t s.
Proof.
  intros [H1 H2]. split; [|exact H2]. intros x X. specialize (H1 x X). unfold schemes_of in H1. destruct (str_eqb_spec t (u "a")) as [->|]; [split; [reflexivity|exact H1]|destruct H1].
Qed.
Theorem C75_safe py p scripting t attrs out :
  p = default_policy \/ p = default_document_policy -> In t (allowed_tags p) ->
  sanitize_parsed_attrs py p (plan_action p scripting t) attrs = Some out ->
  forall k s, In (k, s) out -> In k (map fst attrs) /\ attr_allowed p t k /\ (k = u "href" \/ k = u "src" -> url_is_safe t s).
Proof.
  intros D T S k s I. rewrite (known_allowed p scripting t T) in S. unfold sanitize_parsed_attrs in S. change (a_allowed (compile_action p scripting t)) with (in_strs t (allowed_tags p)) in S.
  replace (in_strs t (allowed_tags p)) with true in S by (symmetry; apply in_strs_In; exact T).
  destruct (sanitize_In py p _ attrs out S k s I) as (K & v & V & C). cbn [a_attrs compile_action] in K.
  split; [apply in_map_iff; exists (k, v); split; [reflexivity|exact V]|]. split; [exact (attrs_allowed p t k D T K)|].
  intros HS. apply safe_is. exact (checked_safe py p scripting t k _ s D T K HS C).
Qed.
(* the same for the one pass, but for attributes kept for the parser's own use: only an element of a tag the policy does not allow has any *)
Theorem C75_one_pass_safe py p scripting strict t a s d self rest closed :
  p = default_policy \/ p = default_document_policy -> In t (allowed_tags p) -> plan_action p scripting t = Some a ->
  parse_attrs_for_action strict (visible p) (reading py p a) s = Some (d, self, rest, closed) ->
  forall k v, In (k, v) d -> attr_allowed p t k /\ (k = u "href" \/ k = u "src" -> url_is_safe t v).
Proof.
  intros D T A P k v I. rewrite (known_allowed p scripting t T) in A. injection A as <-.
  destruct (PropertiesAttr.C41_safe _ _ _ _ _ _ _ _ P k v I) as [[K (w & W)]|[K Q]].
  - cbn [AttrModel.allowed reading a_attrs compile_action] in K. cbn [AttrModel.url reading] in W. split; [exact (attrs_allowed p t k D T K)|].
    intros HS. apply safe_is. destruct (checked py p (compile_action p scripting t) k w) as [|v'|] eqn:C; try discriminate W. injection W as <-.
    exact (checked_safe py p scripting t k w v' D T K HS C).
  - exfalso. cbn [preserve_state state_attrs reading a_preserve a_state compile_action] in Q.
    assert (G : forallb (fun t => negb (in_strs t formatting_names && negb (in_strs t (allowed_tags p))) && negb (str_eqb t (u "input")) && negb (str_eqb t (u "option"))) (allowed_tags p) = true)
      by (destruct D as [-> | ->]; vm_compute; reflexivity).
    rewrite forallb_forall in G. specialize (G t T). apply andb_true_iff in G as [G G3]. apply andb_true_iff in G as [G1 G2].
    apply negb_true_iff in G1, G2, G3. rewrite G1, G2, G3 in Q. destruct Q as [Q|[]]. discriminate Q.
Qed.

(* The table says "allowed" of exactly the tags of the policy, and "drop its content" of exactly the policy's. *)
Theorem C75_tags p scripting t :
  (In t (allowed_tags p) <-> exists a, plan_action p scripting t = Some a /\ a_allowed a = true)
  /\ (In t (drop_content_tags p) <-> exists a, plan_action p scripting t = Some a /\ a_drop_content a = true).
Proof.
  split; split.
  - intros H. exists (compile_action p scripting t). split; [exact (known_allowed p scripting t H)|]. cbn [a_allowed compile_action]. apply in_strs_In. exact H.
  - intros (a & A & E). unfold plan_action in A. destruct (in_strs t (known_tags p scripting)); [|discriminate A]. injection A as <-. apply in_strs_In. exact E.
  - intros H. exists (compile_action p scripting t). split; [|cbn [a_drop_content compile_action]; apply in_strs_In; exact H]. unfold plan_action.
    replace (in_strs t (known_tags p scripting)) with true; [reflexivity|]. symmetry. apply in_strs_In. unfold known_tags. apply in_or_app. right. apply in_or_app. left. exact H.
  - intros (a & A & E). unfold plan_action in A. destruct (in_strs t (known_tags p scripting)); [|discriminate A]. injection A as <-. apply in_strs_In. exact E.
Qed.
(* A tag without an entry (every custom element) is one the parser has no rule for: it is not allowed and none of the engine's special lists has it. *)
Theorem C75_no_entry p scripting t : plan_action p scripting t = None ->
  ~ In t (allowed_tags p) /\ ~ In t (drop_content_tags p) /\ ~ In t formatting_names /\ ~ In t (rawtext_as_text scripting) /\ ~ In t rcdata_tags
  /\ ~ In t plaintext_tags /\ ~ In t (map u ["svg"; "math"; "table"; "tbody"; "td"; "tr"; "caption"; "body"; "html"; "head"; "p"; "li"; "pre"; "input"; "option"; "template"]%string).
Proof.
  unfold plan_action. destruct (in_strs t (known_tags p scripting)) eqn:E; [discriminate|]. intros _.
  assert (N : ~ In t (known_tags p scripting)) by (intros H; apply in_strs_In in H; congruence). unfold known_tags in N.
  repeat split; intros H; apply N; repeat rewrite in_app_iff; try tauto.
  repeat (destruct H as [<-|H]; [match goal with |- context [In ?x] => assert (Q : existsb (str_eqb x) (drop_subtree_tags ++ table_structure_tags ++ p_closing_tags ++ pre_linefeed_tags
     ++ map u ["body"; "button"; "frameset"; "head"; "html"; "image"; "input"; "optgroup"; "option"; "template"; "tr"]%string) = true) by reflexivity;
     apply in_strs_In in Q; rewrite !in_app_iff in Q; tauto end|]). destruct H.
Qed.

(* A tag whose attributes the engine skips has none it would keep. *)
Theorem C75_unread py p scripting strict strip t a s d self rest closed :
  plan_action p scripting t = Some a -> a_scan a = false -> parse_attrs_for_action strict strip (reading py p a) s = Some (d, self, rest, closed) ->
  d = [] /\ forall attrs, sanitize_attrs py p a attrs = Some [].
Proof.
  unfold plan_action. destruct (in_strs t (known_tags p scripting)); [|discriminate]. intros A N. injection A as <-. cbn [a_scan compile_action] in N.
  apply orb_false_iff in N as [N1 N3]. apply orb_false_iff in N1 as [N1 N2].
  assert (E1 : a_attrs (compile_action p scripting t) = []) by (cbn [a_attrs compile_action]; destruct (action_attrs p t); [reflexivity|discriminate N1]).
  assert (E2 : a_state (compile_action p scripting t) = []) by (cbn [a_state compile_action] in *; destruct (str_eqb t (u "input")); [discriminate N2|]; destruct (str_eqb t (u "option")); [discriminate N2|reflexivity]).
  assert (E3 : a_preserve (compile_action p scripting t) = false) by exact N3.
  intros P. split.
  - unfold parse_attrs_for_action in P. destruct (fused_store _ _ _ _ _) as [x|] eqn:E; [|discriminate P]. cbn [option_map] in P. assert (x = d) as -> by congruence. clear P N1 N2 N3.
    revert E. generalize (pairs (scan_attrs true s)). intros ps. revert d. induction ps as [|[k v] ps IH]; intros d E; cbn [fused_store] in E; [congruence|].
    unfold classify in E. cbn [AttrModel.allowed preserve_state state_attrs reading] in E. rewrite E1, E2, E3 in E. cbn [in_strs existsb negb andb orb] in E. exact (IH d E).
  - induction attrs as [|[k v] l IH]; cbn [sanitize_attrs]; [reflexivity|]. rewrite E1. cbn [in_strs existsb negb]. exact IH.
Qed.
(* What the flags of an entry say, in the words of the standard; no other tag has one. *)
Definition flagged (p : policy) (scripting : bool) (f : tag_action -> bool) (t : str) : Prop := exists a, plan_action p scripting t = Some a /\ f a = true.
Lemma flagged_iff p scripting f (l : list str) t : (forall t, f (compile_action p scripting t) = in_strs t l) -> forallb (fun t => in_strs t (known_tags p scripting)) l = true ->
  (flagged p scripting f t <-> In t l).
Proof.
  intros F K. unfold flagged, plan_action. split.
  - intros (a & A & E). destruct (in_strs t (known_tags p scripting)); [|discriminate A]. injection A as <-. rewrite F in E. apply in_strs_In. exact E.
  - intros I. rewrite forallb_forall in K. rewrite (K t I). eexists. split; [reflexivity|]. rewrite F. apply in_strs_In. exact I.
Qed.
Lemma same_names l m t : forallb (fun x => in_strs x m) l && forallb (fun x => in_strs x l) m = true -> in_strs t l = in_strs t m.
Proof.
  intros H. apply andb_true_iff in H as [H1 H2]. rewrite forallb_forall in H1, H2. apply Bool.eq_iff_eq_true. split; intros I; apply in_strs_In in I; auto.
Qed.
Theorem C75_flags p scripting t : p = default_policy \/ p = default_document_policy ->
  (flagged p scripting a_formatting t <-> In t (map u ["a"; "b"; "big"; "code"; "em"; "font"; "i"; "nobr"; "s"; "small"; "strike"; "strong"; "tt"; "u"]%string))
  /\ (flagged p scripting a_pre_linefeed t <-> In t (map u ["pre"; "listing"]%string))
  /\ (flagged p scripting a_table_cell t <-> In t (map u ["td"; "th"]%string))
  /\ (flagged p scripting a_table_section t <-> In t (map u ["tbody"; "tfoot"; "thead"]%string))
  /\ (flagged p scripting a_rcdata t <-> In t (map u ["title"; "textarea"]%string))
  /\ (flagged p scripting a_plaintext t <-> In t (map u ["plaintext"]%string))
  /\ (flagged p scripting a_drop_subtree t <-> In t (map u ["svg"; "math"]%string))
  /\ (flagged p scripting a_drop_content t <-> In t (map u ["script"; "style"]%string))
  /\ (flagged p scripting a_head_content t <-> In t (map u ["base"; "basefont"; "bgsound"; "link"; "meta"; "title"; "noscript"; "noframes"; "style"; "script"; "template"]%string))
  /\ (flagged p scripting a_blocks_frameset t <-> In t (map u ["applet"; "area"; "button"; "dd"; "dt"; "embed"; "iframe"; "input"; "keygen"; "listing"; "marquee"; "object"; "select"; "textarea"; "wbr"; "xmp"]%string)).
Proof.
  intros D. repeat match goal with |- _ /\ _ => split end; apply flagged_iff; try (intros x; apply (same_names _ _ x); vm_compute; reflexivity); try (destruct D as [-> | ->], scripting; vm_compute; reflexivity).
Qed.

(* Two kinds of URL on which the table and the policy differ: the short check keeps them. *)
Local Definition py0 : urllib := Urllib (fun _ => true) (fun _ => true).
Definition differs (t k v : str) : Prop := exists out out' fs,
  sanitize_parsed_attrs py0 default_policy (plan_action default_policy true t) [(k, v)] = Some out
  /\ edit_attrs py0 default_policy no_info t (fst (strip_attrs no_info [(k, Some v)])) = Ok out' fs /\ out' <> map (fun kv => (fst kv, Some (snd kv))) out.
Theorem C75_backslash_refuted : differs (u "a") (u "href") (u "https://x\y").
Proof. do 3 eexists. split; [vm_compute; reflexivity|]. split; [vm_compute; reflexivity|]. vm_compute. intros H. discriminate H. Qed.
Theorem C75_space_refuted : differs (u "a") (u "href") (u "/ /x").
Proof. do 3 eexists. split; [vm_compute; reflexivity|]. split; [vm_compute; reflexivity|]. vm_compute. intros H. discriminate H. Qed.
(* Only the two default policies are compiled to such tables.  For another policy the table would not do: how the `content` of a `meta` is to be read
   depends on its `http-equiv`, which the table, made for each attribute alone, does not see. *)
Definition meta_policy : policy :=
  Policy [u "meta"] [(u "meta", [u "http-equiv"; u "content"])] (UrlPolicy HStrip true [((u "meta", u "content"), default_img_src)] None None) true true [] [] [] MStrip TUnwrap true.
Theorem C75_other_policies_refuted : exists attrs out findings,
  attrs = [(u "http-equiv", u "refresh"); (u "content", u "0;url=javascript:x")]
  /\ sanitize_parsed_attrs py0 meta_policy (plan_action meta_policy true (u "meta")) attrs = Some attrs
  /\ edit_attrs py0 meta_policy no_info (u "meta") (fst (strip_attrs no_info (map (fun kv => (fst kv, Some (snd kv))) attrs))) = Ok out findings
  /\ out = [(u "http-equiv", Some (u "refresh"))].
Proof. do 3 eexists. split; [reflexivity|]. split; [vm_compute; reflexivity|]. split; vm_compute; reflexivity. Qed.

Definition sample : list (str * str) := [(u "onclick", u "x"); (u "href", u "java" ++ [8203] ++ u "script:x"); (u "title", u "a" ++ [8203] ++ u "b"); (u "class", u "c")].
Example C75_case : forall scripting, exists fs, sanitize_parsed_attrs py0 default_policy (plan_action default_policy scripting (u "a")) sample = Some [(u "title", u "ab"); (u "class", u "c")]
  /\ edit_attrs py0 default_policy no_info (u "a") (fst (strip_attrs no_info (map (fun kv => (fst kv, Some (snd kv))) sample))) = Ok [(u "title", Some (u "ab")); (u "class", Some (u "c"))] fs.
Proof.
  intros sc. destruct (C75_same_attributes_partial py0 default_policy sc no_info (u "a") sample) as (out & fs & E1 & E2).
  - left. reflexivity.
  - apply in_strs_In. reflexivity.
  - unfold sample. cbn [map fst]. repeat (constructor; [intros K; repeat (destruct K as [K|K]; [vm_compute in K; discriminate K|]); exact K|]). constructor.
  - intros k [<-|[<-|[<-|[<-|[]]]]]; reflexivity.
  - intros k v [E|[E|[E|[E|[]]]]] H; injection E as <- <-.
    + exfalso. destruct H as [H|H]; vm_compute in H; discriminate H.
    + split; [vm_compute; intuition discriminate|vm_compute; intros Q; discriminate Q].
    + exfalso. destruct H as [H|H]; vm_compute in H; discriminate H.
    + exfalso. destruct H as [H|H]; vm_compute in H; discriminate H.
  - exists fs. destruct sc; vm_compute in E1; injection E1 as <-; (split; [vm_compute; reflexivity|exact E2]).
Qed.
Definition source : str := u " onclick='x' HREF=//e.com/x CLASS='c d' id=1>rest".
Example C75_case_one_pass : exists a d, plan_action default_policy true (u "a") = Some a /\
  parse_attrs_for_action false (visible default_policy) (reading py0 default_policy a) source = Some (d, false, u "rest", true)
  /\ d = [(u "href", u "https://e.com/x"); (u "class", u "c d"); (u "id", u "1")].
Proof. do 2 eexists. split; [vm_compute; reflexivity|]. split; vm_compute; reflexivity. Qed.
Example C75_case_tables : option_map a_simple_start (plan_action default_policy true (u "div")) = Some true /\ option_map a_simple_start (plan_action default_policy true (u "td")) = Some false
  /\ option_map a_preserve (plan_action default_policy true (u "font")) = Some true /\ option_map a_drop_content (plan_action default_policy true (u "script")) = Some true
  /\ option_map a_drop_subtree (plan_action default_policy true (u "svg")) = Some true /\ plan_action default_policy true (u "x-el") = None.
Proof. vm_compute. repeat split. Qed.

Print Assumptions C75_same_attributes_partial.
Print Assumptions C75_one_pass_partial.
Print Assumptions C75_safe.
Print Assumptions C75_one_pass_safe.
Print Assumptions C75_tags.
Print Assumptions C75_no_entry.
Print Assumptions C75_unread.
Print Assumptions C75_flags.
Print Assumptions C75_backslash_refuted.
Print Assumptions C75_space_refuted.
Print Assumptions C75_other_policies_refuted.
