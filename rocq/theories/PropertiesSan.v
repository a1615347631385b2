(* Property theorems C22-C26 (sanitizing a DOM tree).  [apply_policy_to_root py p n = Ok out fs]: sanitizing n with policy p returns the
   tree out, and the findings fs are reported.  Exc: a Python exception (from urllib, or an invalid "srcset" proxy URL...). *)
From Coq Require Import Permutation Sorted.
From Verif Require Import Str StrFacts RawTextSpec SerializerModel UrlModel CssModel SanModel SanSpec SanFacts SanFuel SanProofs SanAttrProofs SanTreeProofs SanDropProofs SanRawProofs SanContentProofs SanCleanProofs SanCleanFinal SanIdemProofs SanIdemTree SanShapeProofs SanPolicyInit SanDefaults SanHandlerModel SanHandlerProofs.
Open Scope N_scope.

Definition py0 : urllib := Urllib (fun _ => true) (fun _ => true).
Definition el (name : string) (attrs : attr_list) (ch : list node) : node := El no_info (u name) (Some (u "html")) attrs ch None.
Definition svg_el (name : string) (ch : list node) : node := El no_info (u name) (Some (u "svg")) [] ch None.
Definition tx (s : string) : node := Tx no_info (u s).
Definition at_ (k v : string) : str * option str := (u k, Some (u v)).

(* ---------------- the conditions on policies hold for every policy the constructor accepts ---------------- *)
Theorem C22_policies_are_valid : forall tags attrs url dc dd content css rel mode h si p, NoDup (map fst (allow_rules url)) ->
  make_policy tags attrs url dc dd content css rel mode h si = Some p -> valid_policy p /\ dict_policy p.
Proof. intros tags attrs url dc dd content css rel mode h si p Hu H. destruct (made_policy _ _ _ _ _ _ _ _ _ _ _ _ Hu H) as (A & B & _). split; assumption. Qed.
Print Assumptions C22_policies_are_valid.
Example C22_policy_example :
  make_policy [u " P "; u ""; u "A"] [(u "A", [u "HREF "; u " "]); (u " a", [u "title"]); (u "*", [u "Style"])] default_url_policy true true [u "script"] [u "color"] [] MStrip TUnwrap true =
  Some (Policy [u "p"; u "a"] [(u "a", [u "href"; u "title"]); (u "*", [u "style"])] default_url_policy true true [u "script"] [u "color"] [] MStrip TUnwrap true) /\
  make_policy [u "p"] [(u "*", [u "style"])] default_url_policy true true [] [] [] MStrip TUnwrap true = None.
Proof. vm_compute. split; reflexivity. Qed.

(* ---------------- C22 ---------------- *)
(* Sanitizing never loops: it ends with a tree or an exception. *)
Theorem C22_total : forall py p n, (exists out fs, apply_policy_to_root py p n = Ok out fs) \/ apply_policy_to_root py p n = Exc.
Proof. intros py p n. pose proof (apply_fuel py p n). destruct (apply_policy_to_root py p n) as [out fs| |]; eauto. contradiction. Qed.
Print Assumptions C22_total.

(* Every element left has an allowed tag; every attribute is allowed, under its lower-case name, once; URL attributes and style
   attributes carry a value that passed the check of the policy (C12-C21). *)
Theorem C22_elements_and_attributes : forall py p n out fs, valid_policy p -> dict_tree n -> apply_policy_to_root py p n = Ok out fs ->
  forall i name ns attrs ch tc, inside (El i name ns attrs ch tc) out ->
  In (lower name) (allowed_tags p) /\ NoDup (map fst attrs) /\
  forall k v, In (k, v) attrs -> lower k = k /\ attr_allowed p name k /\
    (forall kind, In (k, kind) url_attributes -> exists s, v = Some s /\ url_checked py p name k kind s) /\
    (k = u "style" -> exists s, v = Some s /\ style_checked py p name s).
Proof. intros py p n out fs V D H i name ns attrs ch tc Hx. destruct (sanitized_attrs _ _ _ _ _ V D H _ Hx) as [A [B [C _]]]. auto. Qed.
Print Assumptions C22_elements_and_attributes.
(* <meta http-equiv=refresh content> and <param name=href value>: the same, unless the policy has a URL rule for the guarding attribute
   (then its value is changed after the test of the guard) *)
Theorem C22_guarded_urls : forall py p n out fs, valid_policy p -> dict_tree n -> apply_policy_to_root py p n = Ok out fs ->
  forall i name ns attrs ch tc, inside (El i name ns attrs ch tc) out ->
  forall k kind g vals v hv, In (lower name, k, kind, g, vals) guarded_url_attributes -> In (k, v) attrs -> In (g, Some hv) attrs -> In (lower (strip hv)) vals ->
  (forall r, ~ In (lower name, g, r) (allow_rules (pol_url p)) /\ ~ In (u "*", g, r) (allow_rules (pol_url p))) -> exists s, v = Some s /\ url_checked py p name k kind s.
Proof.
  intros py p n out fs V D H i name ns attrs ch tc Hx k kind g vals v hv A B C E F. destruct (sanitized_attrs _ _ _ _ _ V D H _ Hx) as [_ [_ [_ [G _]]]].
  exact (G _ _ _ _ _ _ _ A eq_refl B C E F).
Qed.
Print Assumptions C22_guarded_urls.
(* force_link_rel: every link left has a rel attribute with all the tokens *)
Theorem C22_link_rel : forall py p n out fs, valid_policy p -> dict_tree n -> apply_policy_to_root py p n = Ok out fs -> force_link_rel p <> [] ->
  forall i name ns attrs ch tc, inside (El i name ns attrs ch tc) out -> lower name = u "a" ->
  exists ws, In (u "rel", Some (join [32] ws)) attrs /\ incl (force_link_rel p) ws.
Proof.
  intros py p n out fs V D H F i name ns attrs ch tc Hx Hn. destruct (sanitized_attrs _ _ _ _ _ V D H _ Hx) as [_ [_ [_ [_ G]]]]. destruct (G Hn F) as (ex & E).
  eexists. split; [exact E|]. clear. generalize (force_link_rel p) as ts.
  assert (A : forall ts ex, incl ex (fold_left add_token ts ex)).
  { clear. induction ts as [|t ts IH]; intros ex; [apply incl_refl|]. cbn [fold_left]. eapply incl_tran; [|apply IH]. unfold add_token. destruct (in_strs t ex); [apply incl_refl|]. apply incl_appl. apply incl_refl. }
  intros ts. revert ex. induction ts as [|t ts IH]; intros ex w Hw; [destruct Hw|]. cbn [fold_left]. destruct Hw as [<-|Hw]; [|apply IH; exact Hw].
  apply A. unfold add_token. destruct (in_strs t ex) eqn:E; [apply in_strs_In; exact E|apply in_or_app; right; left; reflexivity].
Qed.
Print Assumptions C22_link_rel.
(* No event handler is left by the built-in policies. *)
Theorem C22_default_no_event_handlers : forall py p n out fs, p = default_policy \/ p = default_document_policy -> dict_tree n -> apply_policy_to_root py p n = Ok out fs ->
  forall i name ns attrs ch tc k v, inside (El i name ns attrs ch tc) out -> In (k, v) attrs -> forall r, k <> (u "on" ++ r)%list.
Proof.
  intros py p n out fs Hp D H i name ns attrs ch tc k v Hx Hk r E. destruct (sanitized_attrs _ _ _ _ _ (default_valid p Hp) D H _ Hx) as [_ [_ [C _]]].
  destruct (C k v Hk) as (_ & A & _). apply (default_no_on p name k Hp A). exists r. exact E.
Qed.
Print Assumptions C22_default_no_event_handlers.
(* Script and style elements, when they are allowed, hold text only; the text cannot end the element, and a style sheet has no
   resource-loading construct (disallowed_functions is the subject of C21). *)
Theorem C22_rawtext : forall py p n out fs, In (u "script") (allowed_tags p) \/ In (u "style") (allowed_tags p) -> apply_policy_to_root py p n = Ok out fs ->
  forall i name ns attrs ch tc, inside_markup (El i name ns attrs ch tc) out -> lower name = u "script" \/ lower name = u "style" -> safe_rawtext (lower name) ch.
Proof. intros py p n out fs A H i name ns attrs ch tc Hx Hn. exact (sanitized_rawtext _ _ _ _ _ A H _ Hx Hn). Qed.
Print Assumptions C22_rawtext.
(* With disallowed_tag_handling="drop" no foreign element is left; in the other modes a foreign element left over has no elements inside. *)
Theorem C22_no_foreign_drop : forall py p n out fs, disallowed_tag_handling p = TDrop -> apply_policy_to_root py p n = Ok out fs ->
  forall i name ns attrs ch tc, inside (El i name ns attrs ch tc) out -> ~ foreign name ns.
Proof. intros py p n out fs D H i name ns attrs ch tc Hx. exact (no_foreign_drop _ _ _ _ _ D H _ Hx). Qed.
Print Assumptions C22_no_foreign_drop.
Theorem C22_foreign_is_bare_partial : forall py p n out fs, apply_policy_to_root py p n = Ok out fs ->
  forall i name ns attrs ch tc, inside (El i name ns attrs ch tc) out -> foreign name ns ->
  forall c i' name' ns' attrs' ch' tc', In c ch -> ~ inside (El i' name' ns' attrs' ch' tc') c.
Proof.
  intros py p n out fs H i name ns attrs ch tc Hx F c i' name' ns' attrs' ch' tc' Hc Hi. destruct (foreign_bare _ _ _ _ _ H _ Hx F) as [A _].
  rewrite Forall_forall in A. exact (A c Hc _ Hi).
Qed.
Print Assumptions C22_foreign_is_bare_partial.
(* REFUTED in general ("no foreign element remains"): what is inside an unwrapped element is not tested for foreign elements.
   The tree of <x><svg><a>hi</a></svg></x>: the svg a is kept. *)
Theorem C22_no_foreign_refuted : exists n out fs, apply_policy_to_root py0 default_policy n = Ok out fs /\ inside (svg_el "a" [tx "hi"]) out.
Proof.
  exists (Fr no_info (u "#document-fragment") [el "x" [] [svg_el "svg" [svg_el "a" [tx "hi"]]]]).
  eexists. eexists. split; [vm_compute; reflexivity|]. eapply in_frag; [left; reflexivity|constructor].
Qed.
Print Assumptions C22_no_foreign_refuted.
Definition dirty : node :=
  Fr no_info (u "#document-fragment")
     [el "p" [at_ "onclick" "evil()"; at_ "CLASS" "x"; at_ "title" "t"] [tx "a"; Cm no_info (u "c"); el "script" [] [tx "evil()"]; el "font" [] [tx "b"; el "a" [at_ "href" "javascript:x"; at_ "id" "i"] [tx "c"]]];
      svg_el "svg" [svg_el "b" [tx "gone"]]; el "a" [at_ "href" " //x.y/z "] [Dt no_info DNone]].
Example C22_example :
  exists fs, apply_policy_to_root py0 default_policy dirty =
  Ok (Fr no_info (u "#document-fragment") [el "p" [at_ "class" "x"; at_ "title" "t"] [tx "a"; tx "b"; el "a" [at_ "id" "i"] [tx "c"]]; el "a" [at_ "href" "https://x.y/z"] []]) fs /\
  map f_msg fs = map u ["Unsafe attribute 'onclick' (not allowed)"; "Dropped comment"; "Unsafe tag 'script' (dropped content)"; "Unsafe tag 'font' (not allowed)";
                        "Unsafe URL in attribute 'href'"; "Unsafe tag 'svg' (foreign namespace)"; "Dropped doctype"]%string.
Proof. eexists. vm_compute. split; reflexivity. Qed.

(* ---------------- C23 ---------------- *)
Theorem C23_no_comments : forall py p n out fs, pol_drop_comments p = true -> apply_policy_to_root py p n = Ok out fs ->
  forall i d, ~ inside (Cm i d) out /\ ~ inside (Pi i d) out.
Proof. intros py p n out fs D H i d. split; intros Hx; exact (no_comments _ _ _ _ _ D H _ Hx). Qed.
Print Assumptions C23_no_comments.
Theorem C23_no_doctypes : forall py p n out fs, pol_drop_doctype p = true -> apply_policy_to_root py p n = Ok out fs -> forall i d, ~ inside (Dt i d) out.
Proof. intros py p n out fs D H i d Hx. exact (no_doctypes _ _ _ _ _ D H _ Hx). Qed.
Print Assumptions C23_no_doctypes.
(* Nothing inside a dropped-content element has an influence on the result (or on the findings).  In "escape" mode the html and body
   elements may not be dropped-content elements. *)
Theorem C23_dropped_content : forall py p n n', (disallowed_tag_handling p = TEscape -> ~ In (u "html") (drop_content_tags p) /\ ~ In (u "body") (drop_content_tags p)) ->
  same_outside p n n' -> forall out fs, apply_policy_to_root py p n = Ok out fs -> apply_policy_to_root py p n' = Ok out fs.
Proof. intros py p n n' Hhb S out fs H. eapply apply_same; eassumption. Qed.
Print Assumptions C23_dropped_content.
(* a comment in front of the html element, and content of script *)
Example C23_example :
  exists fs, apply_policy_to_root py0 default_document_policy
    (Fr no_info (u "#document") [Cm no_info (u "c"); Dt no_info (DStr (u "html"));
       el "html" [] [el "head" [] [el "style" [] [tx "x"]]; el "body" [] [Pi no_info (u "?php"); el "script" [at_ "src" "//x"] [tx "evil()"; el "p" [] []]; tx "t"]]]) =
  Ok (Fr no_info (u "#document") [Dt no_info (DStr (u "html")); el "html" [] [el "head" [] []; el "body" [] [tx "t"]]]) fs /\ List.length fs = 4%nat.
Proof. eexists. vm_compute. split; reflexivity. Qed.
Example C23_same_example : same_outside default_policy dirty
  (Fr no_info (u "#document-fragment")
     [el "p" [at_ "onclick" "evil()"; at_ "CLASS" "x"; at_ "title" "t"] [tx "a"; Cm no_info (u "c"); el "script" [at_ "id" "y"] [tx "other"; el "b" [] []]; el "font" [] [tx "b"; el "a" [at_ "href" "javascript:x"; at_ "id" "i"] [tx "c"]]];
      svg_el "svg" [svg_el "b" [tx "gone"]]; el "a" [at_ "href" " //x.y/z "] [Dt no_info DNone]]).
Proof.
  assert (N : forall n, unclosed_foreign n = false -> ~ unclosed_inside n) by (intros n H Q; apply unclosed_spec in Q; congruence).
  unfold dirty. apply so_fr. constructor.
  - apply so_el; [|constructor]. do 2 (apply so_cons; [apply so_same|]). apply so_cons; [|apply so_cons; [apply so_same|apply so_nil]].
    apply so_dropped.
    + split; [|left; reflexivity]. intros Q. apply in_strs_In in Q. vm_compute in Q. discriminate Q.
    + split; intros Q; exfalso; revert Q; apply N; vm_compute; reflexivity.
  - do 2 (apply so_cons; [apply so_same|]). apply so_nil.
Qed.

(* ---------------- C24 ---------------- *)
(* Sanitizing twice is the same as sanitizing once, and the second run finds nothing.  Partial: trees with foreign elements only in
   "drop" mode, "escape" mode only without stripping of invisible characters (see the refuted theorems below), policies that do not
   allow script or style, and whose URL and CSS checks are idempotent (stable_policy; C12-C21 do not prove this in general). *)
Theorem C24_idempotent_partial : forall py p n out fs,
  (forall t, In t (allowed_tags p) -> t <> u "script" /\ t <> u "style") -> valid_policy p -> dict_policy p -> stable_policy py p -> dict_tree n ->
  (disallowed_tag_handling p = TDrop \/ forall i name ns attrs ch tc, inside (El i name ns attrs ch tc) n -> ~ foreign name ns) ->
  (disallowed_tag_handling p <> TEscape \/ pol_strip_invisible p = false) ->
  apply_policy_to_root py p n = Ok out fs -> apply_policy_to_root py p out = Ok out [].
Proof.
  intros py p n out fs R V Dp S D HF HE H. eapply idempotent; [exact R|exact V|exact Dp|exact S|exact D| |exact HE|exact H].
  destruct HF as [HF|HF]; [left; exact HF|right]. intros x Hx. destruct x; try exact I. eapply HF. exact Hx.
Qed.
Print Assumptions C24_idempotent_partial.
(* for the built-in policies no condition is left but the one on foreign elements *)
Theorem C24_default_idempotent_partial : forall py p n out fs, p = default_policy \/ p = default_document_policy -> dict_tree n ->
  (forall i name ns attrs ch tc, inside (El i name ns attrs ch tc) n -> ~ foreign name ns) ->
  apply_policy_to_root py p n = Ok out fs -> apply_policy_to_root py p out = Ok out [].
Proof.
  intros py p n out fs Hp D HF H. eapply default_idempotent; [exact Hp|exact D| |exact H]. intros x Hx. destruct x; try exact I. eapply HF. exact Hx.
Qed.
Print Assumptions C24_default_idempotent_partial.
(* the text of the result is the text of the input with some characters left out *)
Theorem C24_text : forall py p n out fs, disallowed_tag_handling p <> TEscape -> (forall t, In t (allowed_tags p) -> t <> u "script" /\ t <> u "style") ->
  apply_policy_to_root py p n = Ok out fs -> subseq (text_of out) (text_of n).
Proof. intros py p n out fs HE R H. eapply apply_text; eassumption. Qed.
Print Assumptions C24_text.
(* Exactly the allowed elements, and the contents of the others, are kept: the result, without attributes and bookkeeping, is kept_root.
   Partial: trees without foreign elements, not in escape mode, script and style not allowed. *)
Theorem C24_exact_structure_partial : forall py p n out fs, disallowed_tag_handling p <> TEscape -> (forall t, In t (allowed_tags p) -> t <> u "script" /\ t <> u "style") ->
  (forall i name ns attrs ch tc, inside (El i name ns attrs ch tc) n -> ~ foreign name ns) ->
  apply_policy_to_root py p n = Ok out fs -> erase out = kept_root p n.
Proof. intros py p n out fs HE R HF H. eapply apply_kept; [exact HE|exact R| |exact H]. intros x Hx. destruct x; try exact I. eapply HF. exact Hx. Qed.
Print Assumptions C24_exact_structure_partial.
Example C24_structure_example : kept_root default_policy
  (el "font" [] [tx "a"; el "script" [] [tx "x"]; el "p" [at_ "id" "i"] [Cm no_info (u "c"); el "x" [] [el "b" [] [tx "b"]]]]) =
  Fr no_info (u "#document-fragment") [tx "a"; el "p" [] [el "b" [] [tx "b"]]].
Proof. vm_compute. reflexivity. Qed.
(* REFUTED in general: (1) a foreign element inside an unwrapped element survives the first run, but not the second *)
Theorem C24_foreign_refuted : exists n out fs out2 fs2, apply_policy_to_root py0 default_policy n = Ok out fs /\ apply_policy_to_root py0 default_policy out = Ok out2 fs2 /\
  text_of out = u "hi" /\ text_of out2 = [].
Proof.
  exists (Fr no_info (u "#document-fragment") [el "x" [] [svg_el "svg" [svg_el "a" [tx "hi"]]]]). do 4 eexists.
  split; [vm_compute; reflexivity|]. split; [vm_compute; reflexivity|]. vm_compute. split; reflexivity.
Qed.
Print Assumptions C24_foreign_refuted.
(* (2) in escape mode the text of an escaped comment keeps its invisible characters in the first run *)
Definition escape_policy : policy := Policy [u "p"] [] default_url_policy true true [] [] [] MStrip TEscape true.
Theorem C24_escape_refuted : exists n out fs out2 fs2, apply_policy_to_root py0 escape_policy n = Ok out fs /\ apply_policy_to_root py0 escape_policy out = Ok out2 fs2 /\
  text_of out <> text_of out2.
Proof.
  exists (Fr no_info (u "#document-fragment") [Cm no_info [97; 8203]]). do 4 eexists.
  split; [vm_compute; reflexivity|]. split; [vm_compute; reflexivity|]. vm_compute. discriminate.
Qed.
Print Assumptions C24_escape_refuted.
Example C24_example : exists out fs, apply_policy_to_root py0 default_policy dirty = Ok out fs /\ apply_policy_to_root py0 default_policy out = Ok out [] /\ text_of out = u "abc" /\ text_of dirty = u "aevil()bcgone".
Proof. do 2 eexists. split; [vm_compute; reflexivity|]. split; [vm_compute; reflexivity|]. vm_compute. split; reflexivity. Qed.

(* ---------------- C25 ---------------- *)
(* A tree that meets the policy comes back unchanged, and nothing is reported.  ([fresh n = n]: the walker's own marks are not set.) *)
Theorem C25_clean_unchanged : forall py p n, valid_policy p -> dict_policy p -> clean py p n -> fresh n = n -> apply_policy_to_root py p n = Ok n [].
Proof. intros py p n V D H F. apply clean_unchanged; assumption. Qed.
Print Assumptions C25_clean_unchanged.
Definition tidy_tree : node := Fr no_info (u "#document-fragment") [el "p" [at_ "class" "x"] [tx "a & b"; el "b" [] [tx "c"]]; el "br" [] []].
Example C25_example : clean py0 default_policy tidy_tree /\ fresh tidy_tree = tidy_tree.
Proof.
  split; [|reflexivity].
  assert (NF : forall nm, lower (u nm) <> u "svg" -> lower (u nm) <> u "math" -> ~ foreign (u nm) (Some (u "html"))).
  { intros nm A B [(s & E & N)|[E|E]]; [injection E as <-; apply N; reflexivity|exact (A E)|exact (B E)]. }
  assert (El0 : forall i nm ch tc, in_strs (lower (u nm)) (allowed_tags default_policy) = true -> lower (u nm) <> u "svg" -> lower (u nm) <> u "math" -> lower (u nm) <> u "script" -> lower (u nm) <> u "style" ->
    clean_node py0 default_policy (El i (u nm) (Some (u "html")) [] ch tc)).
  { intros i nm ch tc A B C D1 D2. split; [apply in_strs_In; exact A|]. split; [apply NF; assumption|]. split; [constructor|]. split; [intros k v []|]. split; [intros _ Q; destruct (Q eq_refl)|].
    intros [Q|Q]; contradiction. }
  intros x Hx. unfold tidy_tree, el, tx in Hx.
  repeat match goal with H : inside _ (Fr _ _ _) |- _ => inversion H; subst; clear H | H : inside _ (El _ _ _ _ _ _) |- _ => inversion H; subst; clear H
    | H : inside _ (Tx _ _) |- _ => inversion H; subst; clear H | H : In _ (_ :: _) |- _ => destruct H as [<-|H] | H : In _ [] |- _ => destruct H end; try exact I;
    try (apply El0; [vm_compute; reflexivity|discriminate|discriminate|discriminate|discriminate]); try (intros _; vm_compute; reflexivity).
  split; [apply in_strs_In; vm_compute; reflexivity|]. split; [apply NF; discriminate|]. split; [constructor; [intros []|constructor]|].
  split; [|split; [intros Q; discriminate Q|intros [Q|Q]; discriminate Q]].
  intros k v [Q|[]]. unfold at_ in Q; assert (k = u "class" /\ v = Some (u "x")) as [-> ->] by (split; congruence). split.
  { left. exists (u "*"). eexists. split; [left; reflexivity|]. split; [left; reflexivity|left; reflexivity]. }
  split; [intros _ s E; injection E as <-; vm_compute; reflexivity|]. split; [|intros E; discriminate E].
  intros kind K. exfalso. destruct K as [kind K|kind g vals hv K _ _|r _ _ _ K].
  - unfold url_attributes in K. rewrite !in_app_iff, !in_map_iff in K.
    repeat match goal with H : _ \/ _ |- _ => destruct H as [H|H] | H : exists _, _ |- _ => destruct H as (? & H) | H : _ /\ _ |- _ => destruct H as [? H]
      | H : (_, _) = (_, _) |- _ => injection H as ? ?; subst end;
    cbn [In] in *; repeat match goal with H : _ \/ _ |- _ => destruct H as [H|H] end; subst; try contradiction;
    match goal with H : u _ = u _ |- _ => discriminate H end.
  - cbn [guarded_url_attributes In] in K. destruct K as [K|[K|[]]]; discriminate K.
  - destruct K as [K|[_ K]]; cbn [default_policy pol_url allow_rules default_url_policy In] in K; destruct K as [K|[K|[]]]; discriminate K.
Qed.

(* ---------------- C26 ---------------- *)
(* The three modes compute the same tree and find the same things: "strip" returns the tree; "raise" raises UnsafeHtmlError with the
   first finding, if there is one, and returns the tree otherwise; "collect" returns the tree and collects the findings. *)
Theorem C26_strip : forall py p h n out fs, apply_policy_to_root py p n = Ok out fs -> sanitize_dom py (with_mode MStrip p) h n = Returned out h.
Proof. intros. eapply strip_spec. eassumption. Qed.
Print Assumptions C26_strip.
Theorem C26_raise : forall py p h n out fs, apply_policy_to_root py p n = Ok out fs ->
  sanitize_dom py (with_mode MRaise p) h n = match fs with [] => Returned out h | f :: _ => Unsafe (f_msg f) end.
Proof. intros. apply raise_spec. assumption. Qed.
Print Assumptions C26_raise.
(* so "raise" raises exactly when "collect" reports something, whatever the handlers of the two policies did before *)
Theorem C26_raise_iff_collected : forall py p h h2 n out h3, sanitize_dom py (with_mode MCollect p) h n = Returned out h3 ->
  ((exists msg, sanitize_dom py (with_mode MRaise p) h2 n = Unsafe msg) <-> collected h3 <> []) /\
  sanitize_dom py (with_mode MStrip p) h2 n = Returned out h2.
Proof.
  intros py p h h2 n out h3 H. unfold sanitize_dom in H. rewrite mode_irrelevant in H. destruct (apply_policy_to_root py p n) as [o fs| |] eqn:E; try discriminate H.
  pose proof E as E0. apply collect_spec with (h := h) in E0. destruct E0 as (h' & R & C & _). unfold sanitize_dom in R. rewrite mode_irrelevant, E in R. rewrite R in H. assert (o = out /\ h' = h3) as [-> ->] by (split; congruence).
  split; [|eapply strip_spec; exact E]. rewrite (raise_spec _ _ _ _ _ _ E), C. split.
  - intros (msg & Q) N. destruct fs as [|f fs]; [discriminate Q|]. pose proof (sort_perm (map error_of (f :: fs))) as Pm. rewrite N in Pm. apply Permutation_nil in Pm. discriminate Pm.
  - intros N. destruct fs as [|f fs]; [destruct N; reflexivity|]. eauto.
Qed.
Print Assumptions C26_raise_iff_collected.
(* the position of an error: missing line or column numbers come last *)
Definition position (e : parse_error) : N * N := ((match pe_line e with Some n => n | None => 1000000000 end), (match pe_col e with Some n => n | None => 1000000000 end)).
Definition not_after (a b : parse_error) : Prop := fst (position a) < fst (position b) \/ (fst (position a) = fst (position b) /\ snd (position a) <= snd (position b)).
Definition at_position (k : N * N) (e : parse_error) : bool := (fst (position e) =? fst k) && (snd (position e) =? snd k).
(* "collect": one error per finding, sorted by position, findings at one position in the order they were found; other errors in an
   external sink stay as they are, and nothing collected earlier is left *)
Theorem C26_collect : forall py p h n out fs, apply_policy_to_root py p n = Ok out fs ->
  exists h', sanitize_dom py (with_mode MCollect p) h n = Returned out h' /\
    Permutation (collected h') (map error_of fs) /\ Sorted not_after (collected h') /\
    (forall k, filter (at_position k) (collected h') = filter (at_position k) (map error_of fs)) /\
    (forall l, h_sink h = Some l -> exists l', h_sink h' = Some l' /\ filter (fun e => negb (is_security e)) l' = filter (fun e => negb (is_security e)) l).
Proof.
  intros py p h n out fs H. destruct (collect_spec py p h n out fs H) as (h' & A & B & C). exists h'. split; [exact A|]. rewrite B. split; [apply sort_perm|].
  split; [|split; [intros k; apply sort_stable|exact C]].
  pose proof (sort_sorted (map error_of fs)) as S. revert S. generalize (sort_errs (map error_of fs)) as l. intros l S. induction S as [|a l S IH Hd]; constructor; [exact IH|].
  inversion Hd as [|b l' Q]; subst; constructor. unfold le_err, key_leb in Q. unfold not_after. apply Bool.orb_true_iff in Q. rewrite Bool.andb_true_iff, N.ltb_lt, N.eqb_eq, N.leb_le in Q. exact Q.
Qed.
Print Assumptions C26_collect.
Example C26_example : exists out h', sanitize_dom py0 (with_mode MCollect default_policy) (Handler None (Some [PErr (u "old") None None (u "security") (u "old")])) dirty = Returned out h' /\
  List.length (collected h') = 7%nat /\ sanitize_dom py0 (with_mode MRaise default_policy) (Handler None None) dirty = Unsafe (u "Unsafe attribute 'onclick' (not allowed)").
Proof. do 2 eexists. split; [vm_compute; reflexivity|]. vm_compute. split; reflexivity. Qed.
