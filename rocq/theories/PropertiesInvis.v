(* PROPERTY C47 (invisible Unicode).  Theorems about the function, then about the trees the sanitizer returns. *)
From Coq Require Import Lia ZifyBool ZifyN ZifyNat.
From Verif Require Import Str StrFacts SerializerModel UrlModel CssModel SanModel SanSpec.
From Verif Require SanFacts SanProofs SanAttrProofs SanTreeProofs SanCleanProofs SanIdemProofs SanIdemTree SanDefaults UrlHostProofs UrlIdemProofs PropertiesSan.
Open Scope N_scope.

(* the listed code points: Arabic letter mark, zero-width and bidi controls, word joiners and isolates, variation selectors, byte order mark,
   private use (basic plane and planes 15, 16), and U+E0100..U+E01EF (variation selectors supplement) *)
Definition listed (c : N) : Prop :=
  c = 1564 \/ 8203 <= c <= 8207 \/ 8234 <= c <= 8238 \/ 8288 <= c <= 8297 \/ 65024 <= c <= 65039 \/ c = 65279 \/ 57344 <= c <= 63743 \/
  917760 <= c <= 917999 \/ 983040 <= c <= 1048573 \/ 1048576 <= c <= 1114109.
(* r is s with the listed code points deleted *)
Inductive without : str -> str -> Prop :=
| WO_nil : without [] []
| WO_drop c s r : listed c -> without s r -> without (c :: s) r
| WO_keep c s r : ~ listed c -> without s r -> without (c :: s) (c :: r).

Lemma invisible_listed c : is_invisible c = true <-> listed c.
Proof. unfold is_invisible, in_ranges, invisible_ranges, listed. cbn [existsb fst snd]. lia. Qed.
Theorem C47_exact : forall s r, strip_invisible s = r <-> without s r.
Proof.
  intros s r. rewrite UrlHostProofs.strip_invisible_filter. split.
  - intros <-. induction s as [|c s IH]; [constructor|]. cbn [filter]. destruct (is_invisible c) eqn:E; cbn [negb].
    + apply WO_drop; [apply invisible_listed; exact E|exact IH].
    + apply WO_keep; [rewrite <- invisible_listed; congruence|exact IH].
  - induction 1 as [|c s r L W IH|c s r L W IH]; [reflexivity| |]; cbn [filter].
    + apply invisible_listed in L. rewrite L. exact IH.
    + destruct (is_invisible c) eqn:E; [destruct L; apply invisible_listed; exact E|]. cbn [negb]. f_equal. exact IH.
Qed.
Print Assumptions C47_exact.
Theorem C47_none_left : forall s c, In c (strip_invisible s) -> ~ listed c /\ In c s.
Proof.
  intros s c H. split; [rewrite <- invisible_listed; rewrite (UrlIdemProofs.strip_invisible_no _ _ H); discriminate|].
  rewrite UrlHostProofs.strip_invisible_filter in H. apply filter_In in H. apply H.
Qed.
Print Assumptions C47_none_left.
Theorem C47_idempotent : forall s, strip_invisible (strip_invisible s) = strip_invisible s.
Proof. exact UrlIdemProofs.strip_invisible_idem. Qed.
Print Assumptions C47_idempotent.
Example C47_example : strip_invisible (u "a" ++ [8203; 97; 917760; 1114110; 65533; 65024]) = u "aa" ++ [1114110; 65533].
Proof. vm_compute. reflexivity. Qed.

(* sanitized trees.  Partial: not in escape mode, script and style not allowed *)
Theorem C47_text_partial : forall py p n out fs, pol_strip_invisible p = true -> disallowed_tag_handling p <> TEscape -> (forall t, In t (allowed_tags p) -> t <> u "script" /\ t <> u "style") ->
  apply_policy_to_root py p n = Ok out fs -> forall i d c, inside (Tx i d) out -> In c d -> ~ listed c.
Proof.
  intros py p n out fs S E R H i d c I J. assert (K : SanProofs.All SanIdemTree.clean_text out) by (eapply SanIdemTree.apply_clean_text; eassumption). specialize (K _ I). cbn [SanIdemTree.clean_text] in K.
  rewrite <- K in J. apply C47_none_left in J. apply J.
Qed.
Print Assumptions C47_text_partial.
(* attributes: policies whose URL and style checks are idempotent (the built-in ones are: next theorem) *)
Theorem C47_attrs_partial : forall py p n out fs, pol_strip_invisible p = true -> (forall t, In t (allowed_tags p) -> t <> u "script" /\ t <> u "style") ->
  valid_policy p -> dict_policy p -> stable_policy py p -> dict_tree n ->
  apply_policy_to_root py p n = Ok out fs -> forall i name ns attrs ch tc k v c, inside (El i name ns attrs ch tc) out -> In (k, Some v) attrs -> In c v -> ~ listed c.
Proof.
  intros py p n out fs S R V D St Dt H i name ns attrs ch tc k v c I J Jc. assert (K : SanProofs.All (SanIdemTree.RFixed py p) out) by (eapply SanIdemTree.sanitized_fixed; eassumption). specialize (K _ I). cbn [SanIdemTree.RFixed] in K.
  destruct K as (_ & _ & _ & K & _). rewrite <- (K S k v J) in Jc. apply C47_none_left in Jc. apply Jc.
Qed.
Print Assumptions C47_attrs_partial.
(* the built-in policies: no text and no attribute value keeps a listed code point *)
Theorem C47_default : forall py p n out fs, p = SanDefaults.default_policy \/ p = SanDefaults.default_document_policy -> dict_tree n ->
  apply_policy_to_root py p n = Ok out fs ->
  (forall i d c, inside (Tx i d) out -> In c d -> ~ listed c) /\
  (forall i name ns attrs ch tc k v c, inside (El i name ns attrs ch tc) out -> In (k, Some v) attrs -> In c v -> ~ listed c).
Proof.
  intros py p n out fs P D H. assert (S : pol_strip_invisible p = true /\ disallowed_tag_handling p <> TEscape) by (destruct P as [-> | ->]; split; (reflexivity || discriminate)). destruct S as [S E].
  pose proof (SanDefaults.default_no_rawtext p P) as R. split.
  - intros i d c. eapply C47_text_partial; eassumption.
  - intros i name ns attrs ch tc k v c. eapply C47_attrs_partial; [exact S|exact R|exact (SanDefaults.default_valid p P)|exact (SanDefaults.default_dict p P)|exact (SanDefaults.default_stable py p P)|exact D|exact H].
Qed.
Print Assumptions C47_default.
(* and of the kept text nothing else is missing: see C24_exact_structure_partial (kept_nodes keeps strip_invisible of each text) *)
(* in escape mode the text of an escaped comment keeps them *)
Theorem C47_escape_refuted : exists n out fs i d, pol_strip_invisible PropertiesSan.escape_policy = true /\
  apply_policy_to_root PropertiesSan.py0 PropertiesSan.escape_policy n = Ok out fs /\ inside (Tx i d) out /\ In 8203 d /\ listed 8203.
Proof.
  exists (Fr no_info (u "#document-fragment") [Cm no_info [97; 8203]]). do 4 eexists. split; [reflexivity|]. split; [vm_compute; reflexivity|]. split; [eapply in_frag; [left; reflexivity|apply in_self]|]. split; [cbn [In]; tauto|]. unfold listed. lia.
Qed.
Print Assumptions C47_escape_refuted.
Example C47_tree_example : exists out fs, apply_policy_to_root PropertiesSan.py0 SanDefaults.default_policy
  (Fr no_info (u "#document-fragment") [El no_info (u "p") (Some (u "html")) [(u "title", Some [8203; 98])] [Tx no_info [97; 8203; 99]] None]) = Ok out fs /\ text_of out = u "ac".
Proof. do 2 eexists. split; [vm_compute; reflexivity|]. vm_compute. reflexivity. Qed.
