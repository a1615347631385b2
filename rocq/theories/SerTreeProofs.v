(* Proofs: the compact serializer on whole trees *)
From Coq Require Import Wf_nat Lia ZifyBool ZifyN ZifyNat.
From Verif Require Import ListFacts Str StrFacts HtmlCharRefSpec HtmlTokSpec TokFacts RawTextSpec SerializerModel SerTreeSpec
  SerEscapeProofs SerCommentProofs SerRawProofs.
Open Scope N_scope.

(* ---------- induction over nodes ---------- *)
Section NodeInd.
Variable P : node -> Prop.
Hypothesis HT : forall d, P (NText d).
Hypothesis HC : forall d, P (NComment d).
Hypothesis HP : forall d, P (NPI d).
Hypothesis HD : forall d, P (NDoctype d).
Hypothesis HDoc : forall cs, Forall P cs -> P (NDocument cs).
Hypothesis HE : forall name ns attrs cs tc, Forall P cs -> (forall l, tc = Some l -> Forall P l) -> P (NElem name ns attrs cs tc).
Fixpoint node_ind' (n : node) : P n :=
  let fix go (l : list node) : Forall P l :=
    match l with [] => Forall_nil P | x :: t => Forall_cons x (node_ind' x) (go t) end in
  match n with
  | NText d => HT d
  | NComment d => HC d
  | NPI d => HP d
  | NDoctype d => HD d
  | NDocument cs => HDoc cs (go cs)
  | NElem name ns attrs cs tc => HE name ns attrs cs tc (go cs)
      (match tc as t return forall l, t = Some l -> Forall P l with
       | Some l0 => fun l E => eq_ind l0 (fun l => Forall P l) (go l0) l (f_equal (fun o => match o with Some x => x | None => l0 end) E)
       | None => fun l E => match E with eq_refl => I end
       end)
  end.
End NodeInd.

(* ---------- the stack loop is structural recursion ---------- *)
Definition cat_opt (a b : option str) : option str :=
  match a, b with Some x, Some y => Some (x ++ y)%list | _, _ => None end.

Fixpoint ser (n : node) (p : parent_info) : option str :=
  let fix sers (l : list node) (p : parent_info) : option str :=
    match l with [] => Some [] | x :: t => cat_opt (ser x p) (sers t p) end in
  match n with
  | NText d => Some (serialize_text_for_parent d p)
  | NComment d => Some (u "<!--" ++ serialize_comment_data d ++ u "-->")%list
  | NPI d => Some (u "<?" ++ serialize_pi_data d ++ u "?>")%list
  | NDoctype d => Some (serialize_doctype d)
  | NDocument cs => sers cs None
  | NElem name ns attrs cs tc =>
    match serialize_start_tag default_opts ns name attrs with
    | None => None
    | Some s =>
      if in_strs name void_elements then Some s
      else
        let tpl := str_eqb name (u "template") && match ns with None => true | Some n => str_eqb n (u "html") end in
        let inner := if tpl then match tc with Some l => sers l None | None => sers cs (Some (name, ns)) end
                     else sers cs (Some (name, ns)) in
        match inner with None => None | Some t => Some (s ++ t ++ u "</" ++ name ++ u ">")%list end
    end
  end.
Fixpoint sers (l : list node) (p : parent_info) : option str :=
  match l with [] => Some [] | x :: t => cat_opt (ser x p) (sers t p) end.

Lemma ser_elem name ns attrs cs tc p : ser (NElem name ns attrs cs tc) p =
  match serialize_start_tag default_opts ns name attrs with
  | None => None
  | Some s =>
    if in_strs name void_elements then Some s
    else match sers (fst (serialized_children name ns cs tc)) (snd (serialized_children name ns cs tc)) with
         | None => None | Some t => Some (s ++ t ++ u "</" ++ name ++ u ">")%list end
  end.
Proof.
  cbn [ser]. fold sers. destruct (serialize_start_tag default_opts ns name attrs); [|reflexivity].
  destruct (in_strs name void_elements); [reflexivity|]. unfold serialized_children.
  destruct (str_eqb name (u "template") && _); [|reflexivity]. destruct tc; reflexivity.
Qed.
Lemma ser_document cs p : ser (NDocument cs) p = sers cs None.
Proof. reflexivity. Qed.

Lemma loop_mono f : forall st parts, compact_loop f st parts <> Fuel -> forall k, compact_loop (f + k) st parts = compact_loop f st parts.
Proof.
  induction f as [|f IH]; intros st parts H k.
  - destruct st; [destruct k; reflexivity|]. cbn in H. congruence.
  - destruct st as [|it st]; [reflexivity|]. cbn [Nat.add]. cbn [compact_loop] in *.
    destruct it as [n p|name]; [|apply IH; exact H].
    destruct n as [d|d|d|d|cs|name ns attrs cs tc]; try (apply IH; exact H).
    destruct (serialize_start_tag default_opts ns name attrs); [|reflexivity].
    destruct (in_strs name void_elements); [apply IH; exact H|].
    destruct (serialized_children name ns cs tc); apply IH; exact H.
Qed.

Definition sizes (l : list node) : nat := fold_right (fun c a => node_size c + a)%nat O l.
Lemma sizes_cons n l : sizes (n :: l) = (node_size n + sizes l)%nat. Proof. reflexivity. Qed.
Lemma node_size_doc cs : node_size (NDocument cs) = S (sizes cs). Proof. reflexivity. Qed.
Lemma node_size_elem name ns attrs cs tc : node_size (NElem name ns attrs cs tc) =
  S (S (sizes cs + match tc with Some l => sizes l | None => O end)).
Proof. reflexivity. Qed.

(* Loop goal: processing [n] with enough fuel behaves as the recursive serializer. *)
Definition goal (sz : nat) (items : list item) (res : option str) : Prop :=
  forall f st parts,
    match res with
    | None => compact_loop (sz + f) (items ++ st)%list parts = Raise
    | Some s => compact_loop f st (parts ++ s)%list <> Fuel ->
                compact_loop (sz + f) (items ++ st)%list parts = compact_loop f st (parts ++ s)%list
    end.

Lemma goal_list l p : Forall (fun n => forall p, goal (node_size n) [INode n p] (ser n p)) l ->
  goal (sizes l) (map (fun c => INode c p) l) (sers l p).
Proof.
  induction 1 as [|n l Hn Hl IH]; intros f st parts.
  - cbn. rewrite app_nil_r. reflexivity.
  - cbn [map sers]. rewrite sizes_cons. specialize (Hn p (sizes l + f)%nat (map (fun c => INode c p) l ++ st)%list parts).
    rewrite <- Nat.add_assoc. change ((INode n p :: map (fun c => INode c p) l) ++ st)%list with ([INode n p] ++ (map (fun c => INode c p) l ++ st))%list.
    destruct (ser n p) as [s|]; [|exact Hn]. cbn [cat_opt].
    specialize (IH f st (parts ++ s)%list). destruct (sers l p) as [s'|].
    + intros H. rewrite (app_assoc parts s s') in H |- *. rewrite <- (IH H). apply Hn. rewrite (IH H). exact H.
    + rewrite <- IH. apply Hn. rewrite IH. discriminate.
Qed.

Lemma loop_elem f name ns attrs cs tc p st parts : compact_loop (S f) (INode (NElem name ns attrs cs tc) p :: st) parts =
  match serialize_start_tag default_opts ns name attrs with
  | None => Raise
  | Some s =>
    if in_strs name void_elements then compact_loop f st (parts ++ s)%list
    else let '(l, q) := serialized_children name ns cs tc in
         compact_loop f (map (fun c => INode c q) l ++ IEnd name :: st)%list (parts ++ s)%list
  end.
Proof. reflexivity. Qed.
Lemma loop_end f name st parts : compact_loop (S f) (IEnd name :: st) parts = compact_loop f st (parts ++ u "</" ++ name ++ u ">")%list.
Proof. reflexivity. Qed.

Lemma goal_node n : forall p, goal (node_size n) [INode n p] (ser n p).
Proof.
  induction n as [d|d|d|d|cs IH|name ns attrs cs tc IH IHt] using node_ind'; intros p f st parts;
    try (intros _; reflexivity).
  - rewrite ser_document, node_size_doc. cbn [app Nat.add compact_loop]. pose proof (goal_list cs None IH f st parts) as G. exact G.
  - rewrite ser_elem, node_size_elem. cbn [app Nat.add]. rewrite loop_elem.
    destruct (serialize_start_tag default_opts ns name attrs) as [s|]; [|reflexivity].
    destruct (in_strs name void_elements) eqn:Ev.
    { intros H. replace (S (sizes cs + match tc with Some l => sizes l | None => O end + f))%nat with (f + S (sizes cs + match tc with Some l => sizes l | None => O end))%nat by lia. apply (loop_mono f _ _ H). }
    set (tsz := match tc with Some l => sizes l | None => O end).
    assert (K : exists l q k, serialized_children name ns cs tc = (l, q) /\ (sizes cs + tsz = sizes l + k)%nat /\
              Forall (fun n => forall p, goal (node_size n) [INode n p] (ser n p)) l).
    { unfold serialized_children, tsz. destruct (str_eqb name (u "template") && _).
      - destruct tc as [l|]; [exists l, None, (sizes cs)|exists cs, (Some (name, ns)), O]; (split; [reflexivity|]); (split; [lia|]); [apply IHt; reflexivity|exact IH].
      - exists cs, (Some (name, ns)), (match tc with Some l => sizes l | None => O end). split; [reflexivity|]. split; [lia|exact IH]. }
    destruct K as (l & q & k & -> & Ek & Hl). cbn [fst snd]. rewrite Ek.
    pose proof (goal_list l q Hl (S (k + f)) (IEnd name :: st) (parts ++ s)%list) as G.
    replace (S (sizes l + k + f))%nat with (sizes l + S (k + f))%nat by lia.
    destruct (sers l q) as [t|].
    + intros H.
      assert (E : compact_loop (S (k + f)) (IEnd name :: st) ((parts ++ s) ++ t)%list = compact_loop f st (parts ++ s ++ t ++ u "</" ++ name ++ u ">")%list).
      { rewrite loop_end. rewrite <- !app_assoc. rewrite Nat.add_comm. apply loop_mono. exact H. }
      rewrite G; rewrite E; [reflexivity|exact H].
    + exact G.
Qed.

Lemma to_html_ser n p : to_html_compact n p = match ser n p with Some s => Ok s | None => Raise end.
Proof.
  unfold to_html_compact. pose proof (goal_node n p O [] []) as G. rewrite Nat.add_0_r, app_nil_r in G.
  destruct (ser n p) as [s|]; [|exact G]. apply G. discriminate.
Qed.

(* ---------- names ---------- *)
Lemma lower_no_lit c d l : 128 <= c -> In d (lower_c c) -> is_ascii l = true -> ~ In 107 l -> (forall x, In x (lower_c c) -> In x l) -> False.
Proof.
  intros Hc Hd Ha Hk Hin. unfold is_ascii in Ha. rewrite forallb_forall in Ha.
  destruct (N.eq_dec c 304) as [->|H1].
  - specialize (Hin 775). rewrite lower_c_dotted_I in Hin. specialize (Ha 775 (Hin ltac:(right; left; reflexivity))). discriminate Ha.
  - destruct (N.eq_dec c 8490) as [->|H2].
    + apply Hk. apply Hin. rewrite lower_c_kelvin. left; reflexivity.
    + destruct (lower_c_nonascii c Hc H1 H2) as (e & E & He). specialize (Hin e). rewrite E in Hin.
      specialize (Ha e (Hin (or_introl eq_refl))). unfold is_ascii_char in Ha. lia.
Qed.
Lemma lower_inv s l : lower s = l -> is_ascii l = true -> ~ In 107 l -> is_ascii s = true.
Proof.
  intros <- Ha Hk. unfold is_ascii. rewrite forallb_forall. intros c Hc. unfold is_ascii_char.
  destruct (N.ltb_spec c 128) as [|Hge]; [reflexivity|exfalso].
  destruct (lower_c c) as [|d r] eqn:E.
  - unfold lower_c in E. destruct (c <? 128); [discriminate|]. destruct (c =? 304); [discriminate|]. destruct (lower_lookup _ _); discriminate.
  - apply (lower_no_lit c d (lower s)); try assumption; [rewrite E; left; reflexivity|].
    intros x Hx. unfold lower. apply in_flat_map. exists c; auto.
Qed.

Lemma html_name_spec n : html_name n -> tag_name_re n = true /\ canon_name n = n /\ alow n = n.
Proof.
  intros ((c & m & E & Hc) & Hall).
  assert (Hd : drop_final_nl n = n).
  { destruct (drop_final_nl_cases n) as [[H _]|H]; [exact H|]. exfalso. destruct (Hall 10) as [H1 _].
    - rewrite H. apply in_or_app. right; left; reflexivity.
    - apply H1. cbn; tauto. }
  assert (Hl : alow n = n).
  { unfold alow. rewrite <- (map_id n) at 2. apply map_ext_in. intros x Hx. unfold alow_c. destruct (Hall x Hx) as [_ ->]. reflexivity. }
  split; [|split; [|exact Hl]].
  - unfold tag_name_re. rewrite Hd, E. unfold is_alpha_ascii. rewrite Hc, orb_true_r. cbn [andb].
    apply forallb_forall. intros x Hx. unfold tag_name_char. apply negb_true_iff. apply mem_false_In. intros Hi.
    destruct (Hall x) as [H1 _]; [rewrite E; right; exact Hx|]. apply H1. right. exact Hi.
  - unfold canon_name. fold (drop_final_nl n). rewrite Hd. unfold canon. rewrite <- (map_id n) at 2. apply map_ext_in. intros x Hx. unfold alow_c, nul. destruct (Hall x Hx) as [H1 ->].
    destruct (N.eqb_spec x 0) as [->|]; [exfalso; apply H1; left; reflexivity|reflexivity].
Qed.

Lemma html_name_lit n : html_name n -> in_strs (lower n) literal_text_elements = true -> lower n = n /\ In n literal_text_elements.
Proof.
  intros Hn Hl. apply in_strs_In in Hl.
  assert (Ha : is_ascii n = true).
  { apply (lower_inv n (lower n) eq_refl).
    - cbn in Hl. intuition (match goal with H : _ = _ |- _ => rewrite <- H end; reflexivity).
    - cbn in Hl. intuition (match goal with H : _ = lower n |- _ => rewrite <- H in * end); match goal with H : In 107 _ |- _ => vm_compute in H; intuition discriminate end. }
  assert (E : lower n = n) by (rewrite lower_ascii by exact Ha; apply html_name_spec; exact Hn).
  rewrite E in Hl. auto.
Qed.

(* the switch on names, as lists *)
Lemma switch_cases sc n s : switch sc n = s ->
  (s = Rcdata /\ In n [u "textarea"; u "title"]) \/
  (s = Rawtext /\ (In n [u "style"; u "xmp"; u "iframe"; u "noembed"; u "noframes"] \/ (n = u "noscript" /\ sc = true))) \/
  (s = ScriptData /\ n = u "script") \/ (s = Plaintext /\ n = u "plaintext") \/
  (s = Data /\ ~ In n literal_text_elements /\ ~ In n [u "textarea"; u "title"]).
Proof.
  unfold switch. intros <-.
  destruct (in_strs n [u "textarea"; u "title"]) eqn:E1; [left; split; [reflexivity|apply in_strs_In; exact E1]|right].
  destruct (in_strs n [u "style"; u "xmp"; u "iframe"; u "noembed"; u "noframes"]) eqn:E2; [left; split; [reflexivity|left; apply in_strs_In; exact E2]|].
  destruct (str_eqb n (u "script")) eqn:E3; [right; left; split; [reflexivity|apply str_eqb_eq; exact E3]|].
  destruct (str_eqb n (u "plaintext")) eqn:E4; [right; right; left; split; [reflexivity|apply str_eqb_eq; exact E4]|].
  assert (Hlit : ~ In n literal_text_elements /\ ~ In n [u "textarea"; u "title"]).
  { split.
    - intros Hin. apply in_strs_In in Hin. unfold literal_text_elements, in_strs in *. cbn [existsb] in *.
      repeat match goal with H : (_ || _) = false |- _ => apply Bool.orb_false_iff in H; destruct H end.
      repeat match goal with H : str_eqb n _ = false |- _ => rewrite H in Hin end. discriminate Hin.
    - intros Hin. apply in_strs_In in Hin. congruence. }
  destruct (str_eqb n (u "noscript")) eqn:E5.
  - apply str_eqb_eq in E5. destruct sc; [left; split; [reflexivity|right; auto]|right; right; right; split; [reflexivity|exact Hlit]].
  - right; right; right. split; [reflexivity|exact Hlit].
Qed.

Lemma text_in_data sc name ns d : html_name name -> data_name sc name \/ rcdata_name sc name ->
  serialize_text_for_parent d (Some (name, ns)) = escape_text d.
Proof.
  intros Hn Hs. unfold serialize_text_for_parent. destruct d as [|c d]; [reflexivity|]. destruct (is_html_ns ns); [|reflexivity].
  destruct (in_strs (lower name) literal_text_elements) eqn:E; [exfalso|reflexivity].
  apply html_name_lit in E; [|exact Hn]. destruct E as [_ E].
  assert (Hno : ~ In name [u "textarea"; u "title"]).
  { intros Hi. unfold literal_text_elements in E. cbn [In] in E, Hi.
    destruct Hi as [Hi|[Hi|[]]]; rewrite <- Hi in E; repeat (destruct E as [E|E]; [discriminate E|]); destruct E. }
  destruct Hs as [Hs|Hs]; apply switch_cases in Hs; destruct Hs as [[H1 H2]|[[H1 H2]|[[H1 H2]|[[H1 H2]|[H1 [H2 H3]]]]]]; try discriminate H1; auto.
Qed.

Definition raw_base (sc : bool) (name : str) (b : raw) : Prop := (b = RRawtext /\ raw_name sc name) \/ (b = RScript /\ script_name sc name).

Lemma raw_names sc name : raw_name sc name \/ script_name sc name -> name <> u "noscript" ->
  In name [u "style"; u "xmp"; u "iframe"; u "noembed"; u "noframes"; u "script"].
Proof.
  intros [H|H] Hns; apply switch_cases in H; destruct H as [[H1 H2]|[[H1 H2]|[[H1 H2]|[[H1 H2]|[H1 [H2 H3]]]]]]; try discriminate H1.
  - destruct H2 as [H2|[H2 _]]; [|congruence]. cbn in *. intuition.
  - subst. cbn; auto 10.
Qed.

Lemma text_in_raw name d : In name [u "style"; u "xmp"; u "iframe"; u "noembed"; u "noframes"; u "script"] ->
  serialize_text_for_parent d (Some (name, Some (u "html"))) = neutralize d name.
Proof.
  intros H. destruct d as [|c d]; [reflexivity|]. unfold serialize_text_for_parent.
  cbn [In] in H. repeat (destruct H as [<-|H]; [reflexivity|]). destruct H.
Qed.

Lemma raw_name_props name : In name [u "style"; u "xmp"; u "iframe"; u "noembed"; u "noframes"; u "script"] ->
  forallb is_alpha_ascii name = true /\ alow name = name /\ name <> [] /\ in_strs name void_elements = false /\ str_eqb name (u "template") = false.
Proof. intros H. cbn [In] in H. repeat (destruct H as [<-|H]; [repeat split; try reflexivity; discriminate|]). destruct H. Qed.

Lemma raw_state_switch sc name b : raw_base sc name b -> switch sc name = raw_state b /\ okb b.
Proof. intros [[-> H]|[-> H]]; (split; [exact H|]); [left|right]; reflexivity. Qed.

(* neutralised scripts hide nothing that was not there *)
Lemma neutralize_same name d : forallb is_alpha_ascii name = true -> ~ occurs_end name d -> neutralize d name = d.
Proof.
  intros Hn Ho. destruct (neutralize_total name d Hn) as (o & c & E & _ & Hc). unfold neutralize. rewrite E. destruct c; [|apply Hc; reflexivity].
  exfalso. unfold neutralize_opt in E. destruct d as [|x d]; [discriminate|].
  destruct (alow_alpha name Hn) as (N1 & N2 & N3).
  rewrite neutralize_loop_nl in E; [|exact N3|discriminate|lia]. cbn [skipn] in E. change (u "</" ++ name)%list with (60 :: 47 :: name) in E.
  assert (Ef : find (60 :: 47 :: name) (alow (x :: d)) = None).
  { apply find_None. intros a b Eab. apply Ho. unfold alow in Eab.
    apply map_eq_app in Eab. destruct Eab as (a0 & r0 & E0 & _ & E1). cbn [app] in E1.
    apply map_eq_cons in E1. destruct E1 as (c1 & r1 & -> & C1 & E1). apply map_eq_cons in E1. destruct E1 as (c2 & r2 & -> & C2 & E1).
    apply map_eq_app in E1. destruct E1 as (buf & b0 & -> & Hb & _).
    exists a0, buf, b0. split; [|exact Hb]. rewrite E0.
    assert (H60 : forall z k, alow_c z = k -> is_lower_ascii k = false -> z = k).
    { intros z k Hz Hk. unfold alow_c, is_upper_ascii, is_lower_ascii in *. destruct ((65 <=? z) && (z <=? 90)) eqn:Ez; lia. }
    rewrite (H60 _ _ C1 eq_refl), (H60 _ _ C2 eq_refl). reflexivity. }
  cbn [nl] in E. rewrite Ef in E. discriminate E.
Qed.

(* ---------- reading ---------- *)
Definition reads (sc : bool) (s : str) (toks : list token) : Prop :=
  forall last rest, run sc O last Data (s ++ rest)%list = (toks ++ run sc O [] Data rest)%list.

Definition okparent (sc : bool) (p : parent_info) : Prop :=
  match p with None => True | Some (name, ns) => html_name name /\ data_name sc name end.

Lemma data_last sc last x : run sc O last Data x = run sc O [] Data x.
Proof. apply run_free. reflexivity. Qed.

Lemma text_reads sc d p : okparent sc p -> reads sc (serialize_text_for_parent d p) (chars d).
Proof.
  intros Hp last rest.
  assert (E : serialize_text_for_parent d p = escape_text d).
  { destruct p as [[name ns]|]; [destruct Hp; apply (text_in_data sc); auto|]. destruct d; reflexivity. }
  rewrite E, escape_text_flat, run_data_esc, data_last. reflexivity.
Qed.

Lemma reads_app sc a b ta tb : reads sc a ta -> reads sc b tb -> reads sc (a ++ b)%list (ta ++ tb)%list.
Proof. intros Ha Hb last rest. rewrite <- !app_assoc, Ha, Hb. reflexivity. Qed.

Lemma plain_comment_id d : plain_comment d -> serialize_comment_data d = d.
Proof.
  intros (H1 & H2 & H3 & H4). apply serialize_comment_data_id.
  - apply contains_false. exact H1.
  - destruct (starts [62] d) eqn:E; [|reflexivity]. apply starts_spec in E. destruct E as (t & E). exfalso. exact (H2 t E).
  - destruct (starts [45;62] d) eqn:E; [|reflexivity]. apply starts_spec in E. destruct E as (t & E). exfalso. exact (H3 t E).
  - destruct (ends [45] d) eqn:E; [|reflexivity]. unfold ends in E. apply starts_spec in E. destruct E as (t & E). exfalso. apply (H4 (rev t)).
    rewrite <- (rev_involutive d), E. rewrite rev_app_distr. reflexivity.
Qed.
Lemma filter_nul s : no_spaces (map nul s) = map nul (no_spaces s).
Proof.
  unfold no_spaces. induction s as [|c s IH]; [reflexivity|]. cbn [map filter].
  replace (nul c =? 32) with (c =? 32) by (unfold nul; destruct (N.eqb_spec c 0) as [->|]; reflexivity).
  destruct (c =? 32); cbn [negb]; [exact IH|]. cbn [map]. rewrite IH. reflexivity.
Qed.

Lemma start_reads sc name ns attrs s : html_name name -> serialize_start_tag default_opts ns name attrs = Some s ->
  exists kvs, Forall2 (attr_shown true) attrs kvs /\
    forall last rest, run sc O last Data (s ++ rest)%list = TStart name (first_wins kvs) false :: run sc O name (switch sc name) rest.
Proof.
  intros Hn Hs. destruct (start_tag_reads _ _ _ _ _ Hs sc []) as (kvs & H1 & H2). exists kvs. split; [exact H1|].
  destruct (html_name_spec name Hn) as (_ & E & _). intros last rest. rewrite data_last, H2, E. reflexivity.
Qed.

Lemma end_reads sc name rest : html_name name -> forall last,
  run sc O last Data ((u "</" ++ name ++ u ">") ++ rest)%list = TEnd name :: run sc O [] Data rest.
Proof.
  intros Hn last. destruct (html_name_spec name Hn) as (E1 & E2 & _).
  replace ((u "</" ++ name ++ u ">") ++ rest)%list with (60 :: 47 :: name ++ 62 :: rest)%list by (rewrite <- !app_assoc; reflexivity).
  rewrite end_tag_reads by exact E1. rewrite E2, data_last. reflexivity.
Qed.

Lemma sers_texts sc name ns ds : html_name name -> rcdata_name sc name ->
  sers (map NText ds) (Some (name, ns)) = Some (flat_map esc1 (List.concat ds)).
Proof.
  intros Hn Hs. induction ds as [|d ds IH]; [reflexivity|]. cbn [map sers]. rewrite IH. cbn [ser cat_opt List.concat].
  rewrite (text_in_data sc) by auto. rewrite escape_text_flat, flat_map_app. reflexivity.
Qed.

Lemma rcdata_end sc name rest : In name [u "textarea"; u "title"] ->
  run sc O name Rcdata ((u "</" ++ name ++ u ">") ++ rest)%list = TEnd name :: run sc O [] Data rest.
Proof.
  intros H.
  replace ((u "</" ++ name ++ u ">") ++ rest)%list with (60 :: 47 :: name ++ 62 :: rest)%list by (rewrite <- !app_assoc; reflexivity).
  rewrite (run_eat _ _ _ _ _ (RawLT RRcdata)) by reflexivity.
  rewrite run_end_lt; [rewrite data_last; reflexivity| | |]; cbn [In] in H; destruct H as [<-|[<-|[]]]; try reflexivity; discriminate.
Qed.

Lemma raw_reads sc name b T rest : raw_base sc name b -> name <> u "noscript" -> ~ closes name T -> (b = RScript -> ~ hides_script_end T) ->
  run sc O name (switch sc name) ((T ++ u "</" ++ name ++ u ">") ++ rest)%list = (chars (map nul T) ++ TEnd name :: run sc O [] Data rest)%list.
Proof.
  intros Hb Hns Hc Hh. destruct (raw_state_switch sc name b Hb) as [-> Hok].
  assert (Hin : In name [u "style"; u "xmp"; u "iframe"; u "noembed"; u "noframes"; u "script"]).
  { apply (raw_names sc); [|exact Hns]. destruct Hb as [[_ H]|[_ H]]; auto. }
  destruct (raw_name_props name Hin) as (P1 & P2 & P3 & _).
  replace ((T ++ u "</" ++ name ++ u ">") ++ rest)%list with (T ++ 60 :: 47 :: name ++ 62 :: rest)%list by (rewrite <- !app_assoc; reflexivity).
  rewrite (run_raw sc name P1 P2 P3 b rest T Hok (raw_state b) [] []); [rewrite data_last; reflexivity| |exact Hc|exact Hh].
  constructor. exact Hok.
Qed.

Lemma void_not_raw name : In name void_elements -> forall sc, data_name sc name.
Proof.
  intros H sc. cbn [In void_elements] in H. unfold data_name.
  repeat (destruct H as [<-|H]; [destruct sc; reflexivity|]). destruct H.
Qed.

Lemma content_children name cs tc : serialized_children name (Some (u "html")) cs tc =
  (content name cs tc, if str_eqb name (u "template") then match tc with Some _ => None | None => Some (name, Some (u "html")) end else Some (name, Some (u "html"))).
Proof.
  unfold serialized_children, content. change (str_eqb (u "html") (u "html")) with true. rewrite andb_true_r.
  destruct (str_eqb name (u "template")); [destruct tc|]; reflexivity.
Qed.
Lemma not_template sc name : raw_name sc name \/ script_name sc name \/ rcdata_name sc name -> str_eqb name (u "template") = false /\ in_strs name void_elements = false.
Proof.
  intros H. split.
  - apply str_eqb_neq. intros ->. destruct sc; destruct H as [H|[H|H]]; discriminate H.
  - destruct (in_strs name void_elements) eqn:E; [|reflexivity]. apply in_strs_In in E. pose proof (void_not_raw name E sc) as E'.
    exfalso. unfold data_name, raw_name, script_name, rcdata_name in *. destruct H as [H|[H|H]]; congruence.
Qed.

Lemma sers_reads sc l : Forall (fun n => expressible sc n -> forall p s, okparent sc p -> ser n p = Some s -> exists toks, shown sc n toks /\ reads sc s toks) l ->
  (forall c, In c l -> expressible sc c) -> forall p s, okparent sc p -> sers l p = Some s -> exists ts, shown_list sc l ts /\ reads sc s ts.
Proof.
  induction 1 as [|n l Hn Hl IH]; intros Hex p s Hp Hs.
  - injection Hs as <-. exists []. split; [constructor|]. intros last rest. apply data_last.
  - cbn [sers] in Hs. destruct (ser n p) as [a|] eqn:Ea; [|discriminate Hs]. destruct (sers l p) as [b|] eqn:Eb; [|discriminate Hs]. injection Hs as <-.
    destruct (Hn (Hex n (or_introl eq_refl)) p a Hp Ea) as (ta & A1 & A2).
    destruct (IH (fun c Hc => Hex c (or_intror Hc)) p b Hp Eb) as (tb & B1 & B2).
    exists (ta ++ tb)%list. split; [constructor; assumption|apply reads_app; assumption].
Qed.

Lemma Some_inj {A} (x y : A) : Some x = Some y -> x = y. Proof. congruence. Qed.

Lemma ser_reads sc n : expressible sc n -> forall p s, okparent sc p -> ser n p = Some s -> exists toks, shown sc n toks /\ reads sc s toks.
Proof.
  induction n as [d|d|d|d|cs IH|name ns attrs cs tc IH IHt] using node_ind'; intros Hex p s Hp Hs.
  - apply Some_inj in Hs. subst s. exists (chars d). split; [constructor|apply text_reads; exact Hp].
  - apply Some_inj in Hs. subst s. exists [TComment (map nul (serialize_comment_data d))]. split.
    + constructor.
      * rewrite !filter_nul. f_equal. apply serialize_comment_data_nospace.
      * intros H. rewrite plain_comment_id by exact H. reflexivity.
    + intros last rest. rewrite <- !app_assoc, serialized_comment_reads, data_last. reflexivity.
  - apply Some_inj in Hs. subst s. exists [TComment (63 :: map nul (serialize_pi_data d) ++ [63])%list]. split; [constructor|].
    intros last rest. rewrite <- !app_assoc, pi_reads, data_last. reflexivity.
  - apply Some_inj in Hs. subst s. destruct (doctype_reads d) as (a & b & c & q & E). exists [TDoctype a b c q]. split; [constructor|].
    intros last rest. rewrite E, data_last. reflexivity.
  - inversion Hex as [| | | |cs' Hcs| | | | | |]; subst cs'. rewrite ser_document in Hs.
    destruct (sers_reads sc cs IH Hcs None s I Hs) as (ts & H1 & H2). exists ts. split; [constructor; exact H1|exact H2].
  - rewrite ser_elem in Hs. destruct (serialize_start_tag default_opts ns name attrs) as [st|] eqn:Est; [|discriminate Hs].
    assert (Hns : ns = Some (u "html") /\ html_name name) by (inversion Hex; subst; auto). destruct Hns as [-> Hn].
    destruct (start_reads sc name _ attrs st Hn Est) as (kvs & Hk & Hrun).
    rewrite content_children in Hs. cbn [fst snd] in Hs.
    inversion Hex as [| | | | |name' attrs' tc' Hn' Hv|name' attrs' cs' tc' Hn' Hd Hv Hcs|name' attrs' ds tc' Hn' Hr|name' attrs' tc' Hn' Hr Hno|name' attrs' d tc' Hn' Hr Hno|name' attrs' d tc' Hn' Hr Hh]; subst name' attrs'; try subst cs'; try subst cs; subst tc'.
    + (* void *)
      assert (Ev : in_strs name void_elements = true) by (apply in_strs_In; exact Hv). rewrite Ev in Hs. apply Some_inj in Hs. subst s.
      exists [TStart name (first_wins kvs) false]. split; [constructor; assumption|]. intros last rest. rewrite Hrun.
      rewrite (void_not_raw name Hv sc). rewrite data_last. reflexivity.
    + (* ordinary *)
      assert (Ev : in_strs name void_elements = false) by (destruct (in_strs name void_elements) eqn:E; [apply in_strs_In in E; contradiction|reflexivity]).
      rewrite Ev in Hs. set (q := if str_eqb name (u "template") then _ else _) in Hs.
      assert (Hq : okparent sc q).
      { unfold q. destruct (str_eqb name (u "template")); [destruct tc|]; cbn; auto. }
      destruct (sers (content name cs tc) q) as [t|] eqn:Et; [|discriminate Hs]. apply Some_inj in Hs. subst s.
      assert (IHc : Forall (fun n => expressible sc n -> forall p s, okparent sc p -> ser n p = Some s -> exists toks, shown sc n toks /\ reads sc s toks) (content name cs tc)).
      { unfold content. destruct (str_eqb name (u "template")); [|exact IH]. destruct tc; [apply IHt; reflexivity|exact IH]. }
      destruct (sers_reads sc _ IHc Hcs q t Hq Et) as (ts & H1 & H2).
      exists (TStart name (first_wins kvs) false :: ts ++ [TEnd name])%list. split; [constructor; assumption|].
      intros last rest. rewrite <- app_assoc, Hrun. unfold data_name in Hd. rewrite Hd. rewrite <- app_assoc, H2, end_reads by exact Hn.
      cbn [app]. rewrite <- !app_assoc. reflexivity.
    + (* RCDATA *)
      destruct (not_template sc name) as [Et Ev]; [auto|]. rewrite Ev in Hs. unfold content in Hs. rewrite Et in Hs.
      rewrite (sers_texts sc) in Hs by assumption. apply Some_inj in Hs. subst s.
      exists (TStart name (first_wins kvs) false :: chars (map nul (List.concat ds)) ++ [TEnd name])%list. split; [constructor; assumption|].
      intros last rest. rewrite <- app_assoc, Hrun. pose proof Hr as Hsw. unfold rcdata_name in Hr. rewrite Hr.
      rewrite <- app_assoc, run_rcdata_esc. rewrite rcdata_end.
      * cbn [app]. rewrite <- app_assoc. reflexivity.
      * apply switch_cases in Hsw. destruct Hsw as [[H1 H2]|[[H1 H2]|[[H1 H2]|[[H1 H2]|[H1 [H2 H3]]]]]]; try discriminate H1; exact H2.
    + (* empty raw text *)
      destruct (not_template sc name) as [Et Ev]; [tauto|]. rewrite Ev in Hs. unfold content in Hs. rewrite Et in Hs. cbn [sers] in Hs. apply Some_inj in Hs. subst s.
      exists [TStart name (first_wins kvs) false; TEnd name]. split; [constructor; assumption|].
      intros last rest. rewrite <- app_assoc, Hrun.
      assert (Hb : exists b, raw_base sc name b) by (destruct Hr; [exists RRawtext; left|exists RScript; right]; auto). destruct Hb as (b & Hb).
      change ([] ++ u "</" ++ name ++ u ">")%list with (([] : str) ++ u "</" ++ name ++ u ">")%list.
      rewrite (raw_reads sc name b [] rest Hb Hno); [reflexivity| |].
      * intros (a & buf & c & b0 & E & _). destruct a; discriminate E.
      * intros _ (a & b0 & buf & c & d & E & _). destruct a; discriminate E.
    + (* raw text *)
      destruct (not_template sc name) as [Et Ev]; [auto|]. rewrite Ev in Hs. unfold content in Hs. rewrite Et in Hs. cbn [sers ser cat_opt] in Hs.
      assert (Hin : In name [u "style"; u "xmp"; u "iframe"; u "noembed"; u "noframes"; u "script"]) by (apply (raw_names sc); auto).
      destruct (raw_name_props name Hin) as (P1 & P2 & P3 & _).
      rewrite text_in_raw in Hs by exact Hin. rewrite app_nil_r in Hs. apply Some_inj in Hs. subst s.
      exists (TStart name (first_wins kvs) false :: chars (map nul (neutralize d name)) ++ [TEnd name])%list. split.
      * apply sh_raw; [auto|exact Hk|]. intros Ho. apply neutralize_same; assumption.
      * intros last rest. rewrite <- app_assoc, Hrun. rewrite (raw_reads sc name RRawtext _ rest); [cbn [app]; rewrite <- app_assoc; reflexivity|left; auto|exact Hno| |discriminate].
        apply neutralize_not_closes; exact P1.
    + (* script *)
      destruct (not_template sc name) as [Et Ev]; [auto|]. rewrite Ev in Hs. unfold content in Hs. rewrite Et in Hs. cbn [sers ser cat_opt] in Hs.
      assert (Hno : name <> u "noscript") by (intros ->; destruct sc; discriminate Hr).
      assert (Hin : In name [u "style"; u "xmp"; u "iframe"; u "noembed"; u "noframes"; u "script"]) by (apply (raw_names sc); auto).
      destruct (raw_name_props name Hin) as (P1 & P2 & P3 & _).
      rewrite text_in_raw in Hs by exact Hin. rewrite app_nil_r in Hs. apply Some_inj in Hs. subst s.
      exists (TStart name (first_wins kvs) false :: chars (map nul (neutralize d name)) ++ [TEnd name])%list. split.
      * apply sh_raw; [auto|exact Hk|]. intros Ho. apply neutralize_same; assumption.
      * intros last rest. rewrite <- app_assoc, Hrun. rewrite (raw_reads sc name RScript _ rest); [cbn [app]; rewrite <- app_assoc; reflexivity|right; auto|exact Hno| |].
        -- apply neutralize_not_closes; exact P1.
        -- intros _ Hhid. apply Hh. apply (neutralize_hides name); assumption.
Qed.

(* The whole-tree theorem: a fragment parsed from scratch. *)
Lemma tree_reads sc n html : expressible sc n -> to_html_compact n None = Ok html ->
  exists toks, shown sc n toks /\ run sc O [] Data html = toks.
Proof.
  intros Hex H. rewrite to_html_ser in H. destruct (ser n None) as [s|] eqn:E; [|discriminate H]. injection H as <-.
  destruct (ser_reads sc n Hex None s I E) as (toks & H1 & H2). exists toks. split; [exact H1|].
  rewrite <- (app_nil_r s), H2. cbn [run eof]. apply app_nil_r.
Qed.
