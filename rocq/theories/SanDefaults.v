(* The built-in policies, and the proof that they meet the conditions of the theorems. *)
From Verif Require Import Str StrFacts SerializerModel UrlSpec UrlModel UrlProofs UrlIdemProofs CssModel SanModel SanSpec SanFacts SanFuel SanProofs SanAttrProofs SanTreeProofs SanDropProofs SanContentProofs SanCleanProofs SanCleanFinal SanIdemProofs SanIdemTree.
Open Scope N_scope.

(* sanitizer/policy_defaults.py:44-85, 104 DEFAULT_POLICY; the other fields: the defaults of sanitizer/policy.py:125-216 *)
Definition default_tags : list str :=
  map u ["p"; "br"; "div"; "span"; "blockquote"; "pre"; "code"; "h1"; "h2"; "h3"; "h4"; "h5"; "h6"; "ul"; "ol"; "li"; "table"; "caption"; "thead"; "tbody";
         "tfoot"; "tr"; "th"; "td"; "b"; "strong"; "i"; "em"; "u"; "s"; "sub"; "sup"; "small"; "mark"; "hr"; "a"; "img"]%string.
Definition default_attributes : list (str * list str) :=
  [(u "*", map u ["class"; "id"; "title"; "lang"; "dir"]%string);
   (u "a", map u ["href"; "title"]%string);
   (u "img", map u ["src"; "alt"; "title"; "width"; "height"; "loading"; "decoding"]%string);
   (u "th", map u ["colspan"; "rowspan"]%string);
   (u "td", map u ["colspan"; "rowspan"]%string)].
Definition default_policy : policy :=
  Policy default_tags default_attributes default_url_policy true true [u "script"; u "style"] [] [] MStrip TUnwrap true.
(* policy_defaults.py:127-137 DEFAULT_DOCUMENT_POLICY *)
Definition default_document_policy : policy :=
  Policy (map u ["html"; "head"; "body"; "title"]%string ++ default_tags)%list default_attributes default_url_policy true false [u "script"; u "style"] [] [] MStrip TUnwrap true.

Definition default_like (p : policy) : Prop := p = default_policy \/ p = default_document_policy.
Definition strs_disjoint (l : list str) (bad : list str) : bool := forallb (fun x => negb (in_strs x bad)) l.
Lemma attrs_forall (f : str -> bool) : forallb (fun e => forallb f (snd e)) default_attributes = true -> forall t l k, In (t, l) default_attributes -> In k l -> f k = true.
Proof. intros H t l k A B. rewrite forallb_forall in H. specialize (H _ A). cbn [snd] in H. rewrite forallb_forall in H. auto. Qed.
Lemma default_valid p : default_like p -> valid_policy p.
Proof.
  intros [-> | ->]; (split; cbn [allowed_attributes default_policy default_document_policy];
  [intros t l k A B; apply (attrs_forall (fun k => str_eqb (lower k) k)) with (k := k) in A; [apply str_eqb_eq; exact A|vm_compute; reflexivity|exact B]
  |intros t l A B; apply (attrs_forall (fun k => negb (str_eqb k (u "style")))) with (k := u "style") in A; [discriminate A|vm_compute; reflexivity|exact B]]).
Qed.
Lemma default_dict p : default_like p -> dict_policy p.
Proof.
  assert (N : forall k t l, In (t, l) default_attributes -> In k l -> k <> []).
  { intros k t l A B E. apply (attrs_forall (fun k => negb (str_eqb k []))) with (k := k) in A; [subst; discriminate A|vm_compute; reflexivity|exact B]. }
  assert (D : NoDup (map fst default_attributes)).
  { cbn [map fst default_attributes]. repeat (constructor; [cbn [In]; intros Q; repeat (destruct Q as [Q|Q]; [discriminate Q|]); exact Q|]). constructor. }
  assert (D2 : NoDup (map fst (allow_rules default_url_policy))).
  { cbn [map fst default_url_policy allow_rules]. repeat (constructor; [cbn [In]; intros Q; repeat (destruct Q as [Q|Q]; [discriminate Q|]); exact Q|]). constructor. }
  intros [-> | ->]; (split; [exact D|]; split; [exact D2|]; intros t l k A B; eapply N; eassumption).
Qed.
Lemma default_no_rawtext p : default_like p -> no_rawtext p.
Proof.
  assert (G : forall l, strs_disjoint l [u "script"; u "style"] = true -> forall t, In t l -> t <> u "script" /\ t <> u "style").
  { intros l H t Ht. unfold strs_disjoint in H. rewrite forallb_forall in H. specialize (H t Ht). split; intros ->; vm_compute in H; discriminate H. }
  intros [-> | ->]; unfold no_rawtext; apply G; vm_compute; reflexivity.
Qed.
Lemma default_rule t k r : In (t, k, r) (allow_rules default_url_policy) -> plain_allow r /\ (k = u "href" \/ k = u "src") /\ effective_handling default_url_policy r = HAllow /\ url_filter default_url_policy = None.
Proof.
  cbn [allow_rules default_url_policy In]. intros [Q|[Q|[]]]; injection Q as <- <- <-; (split; [split; [|reflexivity]|split; [auto|split; reflexivity]]).
  - intros s Hs. cbn [allowed_schemes default_a_href In] in Hs. destruct Hs as [<-|[<-|[<-|[<-|[]]]]];
      [exists 104, (u "ttp") | exists 104, (u "ttps") | exists 109, (u "ailto") | exists 116, (u "el")]; repeat split; reflexivity.
  - intros s Hs. destruct Hs.
Qed.
Lemma kind_href k kind : k = u "href" \/ k = u "src" -> kind_of k kind -> kind = KUrl.
Proof.
  intros Hk [H|[(t & g & vals & H)|H]]; [| |exact H].
  - unfold url_attributes in H. rewrite !in_app_iff, !in_map_iff in H.
    repeat match goal with H : _ \/ _ |- _ => destruct H as [H|H] | H : exists _, _ |- _ => destruct H as (? & H) | H : _ /\ _ |- _ => destruct H as [? H]
      | H : (_, _) = (_, _) |- _ => injection H as ? ?; subst end; try reflexivity;
    cbn [In] in *; repeat match goal with H : _ \/ _ |- _ => destruct H as [H|H] end; subst; try contradiction;
    match goal with H : u _ = u _ |- _ => discriminate H end.
  - cbn [guarded_url_attributes In] in H. destruct H as [H|[H|[]]]; injection H as _ <- <- _ _; [destruct Hk as [Hk|Hk]; discriminate Hk|destruct Hk as [Hk|Hk]; discriminate Hk].
Qed.
Lemma default_stable py p : default_like p -> stable_policy py p.
Proof.
  intros Hp.
  assert (E : pol_url p = default_url_policy /\ allowed_css p = [] /\ force_link_rel p = [] /\ allowed_attributes p = default_attributes) by (destruct Hp as [-> | ->]; repeat split; reflexivity).
  destruct E as (E1 & E2 & E3 & E4). unfold stable_policy. rewrite E1, E2, E3, E4.
  split; [|split; [|split; [|split; [|split]]]].
  - intros t k kind r name raw v Hr Hk H. destruct (default_rule _ _ _ Hr) as (R1 & R2 & R3 & R4). pose proof (kind_href _ _ R2 Hk) as ->.
    unfold sanitize_sink in *. cbn [sanitize_simple_sink] in *. unfold sanitize_simple_sink in *. rewrite R3, R4 in *. destruct (url_idem _ _ _ _ _ _ _ _ R1 H) as [A B]. split; [exact A|intros _; exact B].
  - intros name raw v H. destruct (H eq_refl).
  - intros t k r Hr. destruct (default_rule _ _ _ Hr) as (_ & R2 & _). cbn [In]. intros Q.
    destruct R2 as [-> | ->]; repeat (destruct Q as [Q|Q]; [discriminate Q|]); exact Q.
  - split; [constructor|intros w []].
  - intros w [].
  - intros t l H. assert (G : forallb (fun e => str_eqb (lower (fst e)) (fst e)) default_attributes = true) by (vm_compute; reflexivity).
    rewrite forallb_forall in G. specialize (G _ H). apply str_eqb_eq. exact G.
Qed.
Definition starts_on (k : str) : Prop := exists r, k = (u "on" ++ r)%list.
Lemma default_no_on p name k : default_like p -> attr_allowed p name k -> ~ starts_on k.
Proof.
  intros Hp [(t & l & _ & A & B)|(-> & _ & H)] (r & E).
  - assert (A' : In (t, l) default_attributes) by (destruct Hp as [-> | ->]; exact A).
    apply (attrs_forall (fun k => negb (starts (u "on") k))) with (k := k) in A'; [|vm_compute; reflexivity|exact B]. subst k. cbn in A'. discriminate A'.
  - destruct Hp as [-> | ->]; apply H; reflexivity.
Qed.
Lemma default_idempotent py p n out fs : default_like p -> dict_tree n -> All not_foreign n -> apply_policy_to_root py p n = Ok out fs -> apply_policy_to_root py p out = Ok out [].
Proof.
  intros Hp D F H. eapply idempotent; [exact (default_no_rawtext p Hp)|exact (default_valid p Hp)|exact (default_dict p Hp)|exact (default_stable py p Hp)|exact D|right; exact F|left; destruct Hp as [-> | ->]; discriminate|exact H].
Qed.
