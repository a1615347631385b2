(* Proofs: the statements of PropertiesSer.v, assembled from the lemmas of Ser*Proofs.v *)
From Coq Require Import Lia ZifyBool ZifyN ZifyNat.
From Verif Require Import Str StrFacts ListFacts HtmlCharRefSpec HtmlTokSpec RawTextSpec SerializerModel SerTreeSpec TokFacts SerEscapeProofs
  SerCommentProofs SerRawProofs SerTreeProofs.
Open Scope N_scope.

Lemma c01 sc last t rest :
  run sc O last Data (escape_text t ++ rest)%list = (chars t ++ run sc O last Data rest)%list /\
  run sc O last Rcdata (escape_text t ++ rest)%list = (chars (map nul t) ++ run sc O last Rcdata rest)%list /\
  ~ In 60 (escape_text t) /\ ~ In 62 (escape_text t).
Proof.
  rewrite escape_text_flat. repeat split.
  - apply run_data_esc.
  - apply run_rcdata_esc.
  - apply flat_map_no. intros c. apply esc1_no. auto.
  - apply flat_map_no. intros c. apply esc1_no. auto.
Qed.

Lemma c02 sc last t n v q rest : q = 34 \/ q = 39 ->
  run sc O last (if q =? 34 then AttrValDQ t n [] else AttrValSQ t n []) (escape_attr_value v q ++ q :: rest)%list
    = run sc O last (AfterAttrValQuoted (add_attr t n (map nul v))) rest /\
  ~ In q (escape_attr_value v q) /\ ~ In 60 (escape_attr_value v q) /\ ~ In 62 (escape_attr_value v q).
Proof.
  intros Hq. rewrite (escape_attr_value_flat v q Hq). repeat split.
  - destruct Hq as [->| ->]; cbn [N.eqb Pos.eqb]; [apply run_attr_dq|apply run_attr_sq].
  - apply flat_map_no. intros c. apply (esca_no q c q Hq). auto.
  - apply flat_map_no. intros c. apply (esca_no q c 60 Hq). auto.
  - apply flat_map_no. intros c. apply (esca_no q c 62 Hq). auto.
Qed.

(* names the tokenizer reads back as themselves *)
Lemma canon_id s : (forall c, In c s -> c <> 0 /\ is_upper_ascii c = false) -> canon s = s.
Proof.
  intros H. unfold canon. induction s as [|c s IH]; [reflexivity|]. cbn [map]. destruct (H c (or_introl eq_refl)) as [H0 H1].
  rewrite IH by (intros d Hd; apply H; right; exact Hd). unfold nul, alow_c. rewrite H1. replace (c =? 0) with false by lia. reflexivity.
Qed.

Lemma serialize_attr_none o ns name k v : serialize_attr o ns name k v = None <-> attr_name_re k = false.
Proof.
  unfold serialize_attr, validate_attr_name. destruct (attr_name_re k); [|tauto]. cbv zeta. split; [|discriminate]. intros H. exfalso.
  revert H. repeat match goal with |- (if ?b then _ else _) = None -> _ => destruct b; [intros H; discriminate H|] end. intros H; discriminate H.
Qed.
Lemma serialize_attrs_none o ns name attrs : serialize_attrs o ns name attrs = None <-> exists kv, In kv attrs /\ attr_name_re (fst kv) = false.
Proof.
  induction attrs as [|[k v] t IH]; cbn [serialize_attrs]; [split; [discriminate|intros (? & [] & _)]|].
  pose proof (serialize_attr_none o ns name k v) as Hk. destruct (serialize_attr o ns name k v) as [s|].
  - destruct (serialize_attrs o ns name t) as [x|]; cbn [option_map].
    + split; [discriminate|]. intros (kv & [<-|Hin] & Hf); [cbn [fst] in Hf; apply Hk in Hf; discriminate|]. exfalso. assert (Some x = None) by (apply IH; eauto). discriminate.
    + split; [|reflexivity]. intros _. destruct (proj1 IH eq_refl) as (kv & Hin & Hf). exists kv. split; [right; exact Hin|exact Hf].
  - split; [|reflexivity]. intros _. exists (k, v). split; [left; reflexivity|apply Hk; reflexivity].
Qed.

Lemma start_tag_none o ns name attrs :
  serialize_start_tag o ns name attrs = None <-> tag_name_re name = false \/ exists kv, In kv attrs /\ attr_name_re (fst kv) = false.
Proof.
  unfold serialize_start_tag, validate_tag_name. rewrite <- (serialize_attrs_none o ns name attrs). destruct (tag_name_re name) eqn:E.
  - destruct (serialize_attrs o ns name attrs); split; intros H; try discriminate H; try (destruct H; discriminate); auto.
  - split; auto.
Qed.

Definition bad_name_char (c : N) : Prop := In c [9; 10; 12; 13; 32; 47; 62].
(* an unsafe name: empty, or with a separator or '>' anywhere but a final newline, or (tags) not starting with a letter *)
Lemma forallb_bad (p : N -> bool) l : forallb p l = false <-> exists c, In c l /\ p c = false.
Proof.
  induction l as [|c l IH]; cbn [forallb]; [split; [discriminate|intros (? & [] & _)]|]. destruct (p c) eqn:E; cbn [andb].
  - rewrite IH. split; intros (d & Hd & Hp); [exists d; split; [right; exact Hd|exact Hp]|]. destruct Hd as [->|Hd]; [congruence|eauto].
  - split; [|reflexivity]. intros _. exists c. split; [left; reflexivity|exact E].
Qed.

Lemma last_nl_cases s : (exists r, s = (r ++ [10])%list /\ drop_final_nl s = r) \/ ((forall r, s <> (r ++ [10])%list) /\ drop_final_nl s = s).
Proof. destruct (drop_final_nl_cases s) as [[E H]|E]; [right; split; assumption|left; eexists; split; eauto]. Qed.

Lemma tag_name_char_bad c : tag_name_char c = false <-> bad_name_char c.
Proof. unfold tag_name_char, bad_name_char. rewrite <- mem_In. destruct (mem c _); cbn; split; congruence. Qed.

Lemma c03_tag_rejects name : (forall r, name <> (r ++ [10])%list) ->
  (tag_name_re name = false <-> (forall c r, name = c :: r -> is_alpha_ascii c = false) \/ exists c, In c name /\ bad_name_char c).
Proof.
  intros Hnl. unfold tag_name_re. destruct (last_nl_cases name) as [(r & E & _)|[_ ->]]; [exfalso; exact (Hnl r E)|].
  destruct name as [|c t]; [split; [intros _; left; intros; discriminate|reflexivity]|].
  destruct (is_alpha_ascii c) eqn:Ea; cbn [andb].
  - rewrite forallb_bad. split.
    + intros (d & Hd & Hb). right. exists d. split; [right; exact Hd|apply tag_name_char_bad; exact Hb].
    + intros [H|(d & [<-|Hd] & Hb)]; [specialize (H c t eq_refl); congruence| |].
      * apply tag_name_char_bad in Hb. apply is_alpha_not in Ea. destruct Ea as (_ & _ & Ea). congruence.
      * exists d. split; [exact Hd|apply tag_name_char_bad; exact Hb].
  - split; [|reflexivity]. intros _. left. intros c' r H. injection H as -> _. exact Ea.
Qed.
Lemma c03_attr_rejects name : (forall r, name <> (r ++ [10])%list) ->
  (attr_name_re name = false <-> name = [] \/ exists c, In c name /\ (bad_name_char c \/ c = 61)).
Proof.
  intros Hnl. unfold attr_name_re. destruct (last_nl_cases name) as [(r & E & _)|[_ ->]]; [exfalso; exact (Hnl r E)|].
  destruct name as [|c t]; [split; [intros _; left; reflexivity|reflexivity]|].
  rewrite forallb_bad. split.
  - intros (d & Hd & Hb). right. exists d. split; [exact Hd|]. unfold attr_name_char in Hb. apply negb_false_iff, mem_In in Hb. cbn in Hb. unfold bad_name_char. cbn. intuition.
  - intros [H|(d & Hd & Hb)]; [discriminate H|]. exists d. split; [exact Hd|]. unfold attr_name_char. apply negb_false_iff, mem_In. unfold bad_name_char in Hb. cbn in Hb |- *. intuition.
Qed.

Lemma starts_tag_rejects o ns name attrs :
  (forall r, name <> (r ++ [10])%list) -> (forall kv r, In kv attrs -> fst kv <> (r ++ [10])%list) ->
  (serialize_start_tag o ns name attrs = None <->
   ((forall c r, name = c :: r -> is_alpha_ascii c = false) \/ exists c, In c name /\ bad_name_char c) \/
   (exists kv, In kv attrs /\ (fst kv = [] \/ exists c, In c (fst kv) /\ (bad_name_char c \/ c = 61)))).
Proof.
  intros Hn Ha. rewrite start_tag_none, (c03_tag_rejects name Hn). split; (intros [H|(kv & Hin & H)]; [left; exact H|right]; exists kv; split; [exact Hin|]).
  - apply (c03_attr_rejects (fst kv)); [intros r; apply Ha; exact Hin|exact H].
  - apply (c03_attr_rejects (fst kv)); [intros r; apply Ha; exact Hin|exact H].
Qed.

(* C04 *)
Lemma c04 sc last d rest : exists d',
  run sc O last Data (u "<!--" ++ serialize_comment_data d ++ u "-->" ++ rest)%list = TComment d' :: run sc O last Data rest /\
  no_spaces d' = no_spaces (map nul d) /\ (plain_comment d -> d' = map nul d).
Proof.
  exists (map nul (serialize_comment_data d)). split; [apply serialized_comment_reads|]. split.
  - rewrite !filter_nul. unfold no_spaces. rewrite serialize_comment_data_nospace. reflexivity.
  - intros H. rewrite (plain_comment_id d H). reflexivity.
Qed.

Lemma c05 sc last d rest :
  exists d', run sc O last Data (u "<?" ++ serialize_pi_data d ++ u "?>" ++ rest)%list = TComment d' :: run sc O last Data rest /\
  ~ In 62 (u "<?" ++ serialize_pi_data d ++ u "?")%list.
Proof.
  eexists. split; [apply pi_reads|]. intros H. rewrite !in_app_iff in H. destruct H as [H|[H|H]]; [vm_compute in H; intuition discriminate|exact (serialize_pi_no_gt d H)|vm_compute in H; intuition discriminate].
Qed.

Lemma c06 d : (exists a b c q, forall sc last rest, run sc O last Data (serialize_doctype d ++ rest)%list = TDoctype a b c q :: run sc O last Data rest) /\
  exists body, serialize_doctype d = (body ++ [62])%list /\ ~ In 62 body.
Proof.
  split; [apply doctype_reads|]. destruct (serialize_doctype_split d) as (T & -> & HT). exists (u "<!DOCTYPE" ++ T)%list. rewrite <- app_assoc. split; [reflexivity|].
  intros H. apply in_app_iff in H. destruct H as [H|H]; [vm_compute in H; intuition discriminate|exact (HT H)].
Qed.

Lemma sep_escape v : escape_attr_value v 34 = v <-> (~ In 38 v /\ ~ In 60 v /\ ~ In 62 v /\ ~ In 34 v).
Proof.
  rewrite (escape_attr_value_flat v 34 (or_introl eq_refl)). split.
  - intros H.
    assert (L : forall w, (List.length w <= List.length (flat_map (esca 34) w))%nat /\ (List.length (flat_map (esca 34) w) = List.length w -> ~ In 38 w /\ ~ In 60 w /\ ~ In 62 w /\ ~ In 34 w)).
    { induction w as [|c w [IH1 IH2]]; [split; [cbn; lia|cbn; tauto]|]. cbn [flat_map]. rewrite app_length. cbn [List.length].
      assert (Hc : (List.length (esca 34 c) = 1%nat /\ c <> 38 /\ c <> 60 /\ c <> 62 /\ c <> 34) \/ (2 <= List.length (esca 34 c))%nat).
      { unfold esca, esc1. destruct (N.eqb_spec c 34); [right; subst; cbn; lia|]. destruct (N.eqb_spec c 38); [right; cbn; lia|]. destruct (N.eqb_spec c 60); [right; cbn; lia|]. destruct (N.eqb_spec c 62); [right; cbn; lia|left; cbn; auto]. }
      destruct Hc as [(E & H1 & H2 & H3 & H4)|E]; [|split; lia]. rewrite E. split; [lia|]. intros HL. destruct IH2 as (I1 & I2 & I3 & I4); [lia|]. cbn [In]. intuition congruence. }
    apply L. rewrite H. reflexivity.
  - intros (H1 & H2 & H3 & H4). apply flat_map_id. intros c Hc. unfold esca, esc1.
    destruct (N.eqb_spec c 34); [subst; tauto|]. destruct (N.eqb_spec c 38); [subst; tauto|]. destruct (N.eqb_spec c 60); [subst; tauto|]. destruct (N.eqb_spec c 62); [subst; tauto|reflexivity].
Qed.

Lemma c06_exact n p s sc last rest : tag_name_re n = true ->
  (forall v c, p = Some v \/ s = Some v -> In c v -> ~ In c [38; 60; 62; 34]) ->
  run sc O last Data (serialize_doctype (DObj (Doctype_ (Some n) p s)) ++ rest)%list
  = TDoctype (Some (canon_name n)) (option_map (map nul) p) (option_map (map nul) s) false :: run sc O last Data rest.
Proof.
  intros Hn H. rewrite doctype_exact by exact Hn.
  assert (E : forall o, (forall v c, o = Some v -> In c v -> ~ In c [38; 60; 62; 34]) -> option_map (fun v => map nul (escape_attr_value v 34)) o = option_map (map nul) o).
  { intros [v|] Ho; [|reflexivity]. cbn [option_map]. rewrite (proj2 (sep_escape v)); [reflexivity|]. repeat split; intros Hi; apply (Ho v _ eq_refl Hi); cbn; tauto. }
  rewrite !E; [reflexivity| |]; intros v c Hv; apply H; auto.
Qed.

(* C07/C08: the element as to_html writes it *)
Lemma raw_element sc name attrs d html : In name [u "style"; u "xmp"; u "iframe"; u "noembed"; u "noframes"; u "script"] ->
  (name = u "script" -> ~ hides_script_end d) ->
  to_html_compact (NElem name (Some (u "html")) attrs [NText d] None) None = Ok html ->
  exists kvs d', Forall2 (attr_shown true) attrs kvs /\ (~ occurs_end name d -> d' = d) /\
   forall last rest, run sc O last Data (html ++ rest)%list
     = (TStart name (first_wins kvs) false :: chars (map nul d') ++ TEnd name :: run sc O [] Data rest)%list.
Proof.
  intros Hin Hs H. rewrite to_html_ser in H.
  assert (Hhn : html_name name).
  { cbn [In] in Hin. destruct Hin as [<-|[<-|[<-|[<-|[<-|[<-|[]]]]]]]; (split; [eexists; eexists; split; [reflexivity|reflexivity]|]); intros c Hc; vm_compute in Hc; cbn [In]; split; (intuition (subst; try discriminate; try lia; reflexivity)). }
  assert (Hnoscript : name <> u "noscript") by (cbn [In] in Hin; destruct Hin as [<-|[<-|[<-|[<-|[<-|[<-|[]]]]]]]; discriminate).
  assert (Hb : exists b, raw_base sc name b /\ (b = RScript -> name = u "script")).
  { cbn [In] in Hin. destruct Hin as [<-|[<-|[<-|[<-|[<-|[<-|[]]]]]]];
      [exists RRawtext|exists RRawtext|exists RRawtext|exists RRawtext|exists RRawtext|exists RScript]; (split; [|first [reflexivity|discriminate]]); unfold raw_base;
      [left|left|left|left|left|right]; split; reflexivity. }
  destruct Hb as (b & Hb & HbS).
  rewrite ser_elem in H.
  destruct (serialize_start_tag default_opts (Some (u "html")) name attrs) as [s|] eqn:Es; [|discriminate H].
  destruct (not_template sc name) as [Et Ev]. { destruct Hb as [[_ ?]|[_ ?]]; auto. }
  rewrite Ev in H. unfold serialized_children in H. rewrite Et in H. cbn [andb] in H.
  destruct (start_reads sc name (Some (u "html")) attrs s Hhn Es) as (kvs & Hk & Hr).
  exists kvs, (neutralize d name). split; [exact Hk|]. 
  assert (Hal : forallb is_alpha_ascii name = true) by (cbn [In] in Hin; destruct Hin as [<-|[<-|[<-|[<-|[<-|[<-|[]]]]]]]; reflexivity).
  split; [intros Ho; apply neutralize_same; assumption|].
  intros last rest.
  assert (Hh : html = (s ++ neutralize d name ++ u "</" ++ name ++ u ">")%list).
  { cbn [fst snd sers ser cat_opt] in H. rewrite text_in_raw in H by exact Hin. rewrite app_nil_r in H. apply (f_equal (fun r => match r with Ok x => x | _ => [] end)) in H. cbv beta iota in H. symmetry. exact H. }
  rewrite Hh, <- app_assoc, Hr. 
  rewrite (raw_reads sc name b (neutralize d name) rest Hb Hnoscript (neutralize_not_closes name d Hal)); [reflexivity|].
  intros Hbs Hhide. apply (Hs (HbS Hbs)). apply (neutralize_hides name d Hal Hhide).
Qed.

(* tokenize (with newline preprocessing) when there is no CR *)
Lemma newlines_id s : ~ In 13 s -> newlines s = s.
Proof.
  induction s as [|c s IH]; intros H; [reflexivity|]. rewrite newlines_cons_other by (intros ->; apply H; left; reflexivity).
  rewrite IH by (intros Hs; apply H; right; exact Hs). reflexivity.
Qed.
Lemma tree_tokenize sc n html : expressible sc n -> to_html_compact n None = Ok html -> ~ In 13 html ->
  shown sc n (tokenize sc html).
Proof.
  intros He Hh H13. destruct (tree_reads sc n html He Hh) as (toks & Hs & Hr). unfold tokenize. rewrite (newlines_id html H13), Hr. exact Hs.
Qed.

Lemma end_tag_reads' name s sc last rest : serialize_end_tag name = Some s ->
  run sc O last Data (s ++ rest)%list = TEnd (canon_name name) :: run sc O last Data rest.
Proof.
  unfold serialize_end_tag, validate_tag_name. destruct (tag_name_re name) eqn:E; [|discriminate]. intros H. apply Some_inj in H. subst s.
  replace ((60 :: 47 :: name ++ [62]) ++ rest)%list with (60 :: 47 :: name ++ 62 :: rest)%list by (cbn [app]; rewrite <- app_assoc; reflexivity).
  apply end_tag_reads. exact E.
Qed.
Lemma final_newline_refuted : exists name k s,
  serialize_start_tag default_opts None name [(k, None)] = Some s /\
  run false O [] Data s = [TStart (u "div") [(u "onclick", [])] false] /\ name <> u "div" /\ k <> u "onclick".
Proof. exists (u "div" ++ [10])%list, (u "onclick" ++ [10])%list. eexists. split; [reflexivity|]. split; [vm_compute; reflexivity|]. split; intros H; discriminate H. Qed.
Lemma nameless_doctype_refuted : exists d a b c q, dt_name d = None /\
  run false O [] Data (serialize_doctype (DObj d)) = [TDoctype (Some a) b c q].
Proof. exists (Doctype_ None (Some (u "x")) None). do 4 eexists. split; [reflexivity|]. vm_compute. reflexivity. Qed.
Lemma two_text_nodes_refuted : exists d1 d2 html,
  to_html_compact (NElem (u "style") (Some (u "html")) [] [NText d1; NText d2] None) None = Ok html /\
  In (TStart (u "img") [(u "onerror", u "x")] false) (run false O [] Data html).
Proof. exists (u "</sty"), (u "le><img onerror=x>"). eexists. split; [reflexivity|]. vm_compute. auto. Qed.
Lemma text_lost_refuted : exists d d' a, neutralize d (u "style") = d' /\ d = (a ++ u "</stylex>q</STYLE>")%list /\ a <> [] /\
  d' = u "/stylex>q&lt;/STYLE>".
Proof. exists (u "abc</stylex>q</STYLE>"). eexists. exists (u "abc"). split; [reflexivity|]. split; [reflexivity|]. split; [discriminate|vm_compute; reflexivity]. Qed.
Lemma c07 sc name attrs d html :
  In name [u "style"; u "xmp"; u "iframe"; u "noembed"; u "noframes"] ->
  to_html_compact (NElem name (Some (u "html")) attrs [NText d] None) None = Ok html ->
  exists kvs d', Forall2 (attr_shown true) attrs kvs /\ (~ occurs_end name d -> d' = d) /\
   forall last rest, run sc O last Data (html ++ rest)%list
     = (TStart name (first_wins kvs) false :: chars (map nul d') ++ TEnd name :: run sc O [] Data rest)%list.
Proof.
  intros Hin. apply raw_element; [cbn [In] in *; tauto|]. intros ->. cbn [In] in Hin. repeat (destruct Hin as [Hin|Hin]; [discriminate Hin|]). destruct Hin.
Qed.
Lemma c08 sc attrs d html : ~ hides_script_end d ->
  to_html_compact (NElem (u "script") (Some (u "html")) attrs [NText d] None) None = Ok html ->
  exists kvs d', Forall2 (attr_shown true) attrs kvs /\ (~ occurs_end (u "script") d -> d' = d) /\
   forall last rest, run sc O last Data (html ++ rest)%list
     = (TStart (u "script") (first_wins kvs) false :: chars (map nul d') ++ TEnd (u "script") :: run sc O [] Data rest)%list.
Proof. intros H. apply raw_element; [cbn [In]; tauto|]. intros _; exact H. Qed.

(* text that contains no '<' *)
Definition chars_only (s : str) : str := filter (fun c => negb (c =? 60)) s.
Lemma run_esc_nolt sc last st s : (forall c, In c s -> c <> 60) -> st = ScriptEsc \/ st = ScriptEscDash \/ st = ScriptEscDashDash \/ st = ScriptData ->
  ~ In (TEnd (u "script")) (run sc O last st s).
Proof.
  revert st. induction s as [|c s IH]; intros st H Hst; [destruct Hst as [->|[->|[->| ->]]]; intros []|].
  assert (Hc : (c =? 60) = false) by (apply N.eqb_neq; apply H; left; reflexivity).
  assert (Hs : forall d, In d s -> d <> 60) by (intros d Hd; apply H; right; exact Hd).
  assert (G : forall x st', st' = ScriptEsc \/ st' = ScriptEscDash \/ st' = ScriptEscDashDash \/ st' = ScriptData -> run sc O last st (c :: s) = TChar x :: run sc O last st' s -> ~ In (TEnd (u "script")) (run sc O last st (c :: s))).
  { intros x st' Hst' ->. intros [E|E]; [discriminate E|]. exact (IH st' Hs Hst' E). }
  destruct Hst as [->|[->|[->| ->]]].
  - destruct (c =? 45) eqn:E1.
    + apply (G c ScriptEscDash); [auto|]. cbn [run resolve step]. rewrite E1. reflexivity.
    + apply (G (nul c) ScriptEsc); [auto|]. cbn [run resolve step]. rewrite E1, Hc. reflexivity.
  - destruct (c =? 45) eqn:E1.
    + apply (G c ScriptEscDashDash); [auto|]. cbn [run resolve step]. rewrite E1. reflexivity.
    + apply (G (nul c) ScriptEsc); [auto|]. cbn [run resolve step]. rewrite E1, Hc. reflexivity.
  - destruct (c =? 45) eqn:E1; [|destruct (c =? 62) eqn:E2].
    + apply (G c ScriptEscDashDash); [auto|]. cbn [run resolve step]. rewrite E1. reflexivity.
    + apply (G c ScriptData); [auto|]. cbn [run resolve step]. rewrite E1, Hc, E2. reflexivity.
    + apply (G (nul c) ScriptEsc); [auto|]. cbn [run resolve step]. rewrite E1, Hc, E2. reflexivity.
  - apply (G (nul c) ScriptData); [auto|]. cbn [run resolve step]. rewrite Hc. reflexivity.
Qed.
Lemma double_escaped_refuted : exists d html, to_html_compact (NElem (u "script") (Some (u "html")) [] [NText d] None) None = Ok html /\
  forall rest, ~ In (TEnd (u "script")) (run false O [] Data (html ++ u "<p>" ++ chars_only rest)%list).
Proof.
  exists (u "<!--<script>"), (u "<script><!--<script></script>"). split; [vm_compute; reflexivity|]. intros rest.
  assert (E : run false O [] Data (u "<script><!--<script></script>" ++ u "<p>" ++ chars_only rest)%list =
     (TStart (u "script") [] false :: chars (u "<!--<script></script><p>") ++ run false O (u "script") ScriptEsc (chars_only rest))%list) by reflexivity.
  rewrite E. intros [H|H]; [discriminate H|]. apply in_app_iff in H. destruct H as [H|H].
  - unfold chars in H. apply in_map_iff in H. destruct H as (x & H & _). discriminate H.
  - revert H. apply run_esc_nolt; [|auto]. intros c Hc. unfold chars_only in Hc. apply filter_In in Hc. destruct Hc as [_ Hc]. lia.
Qed.
Lemma to_html_total n p : to_html_compact n p <> Fuel.
Proof. rewrite to_html_ser. destruct (ser n p); discriminate. Qed.

Lemma html_name_dec n : (match n with c :: _ => is_lower_ascii c | [] => false end && forallb (fun c => negb (mem c [0; 9; 10; 12; 13; 32; 47; 62]) && negb (is_upper_ascii c)) n = true) -> html_name n.
Proof.
  intros H. apply andb_prop in H. destruct H as [H1 H2]. split.
  - destruct n as [|c m]; [discriminate|]. exists c, m. auto.
  - intros c Hc. rewrite forallb_forall in H2. specialize (H2 c Hc). apply andb_prop in H2. destruct H2 as [H2 H3]. apply negb_true_iff in H2, H3. apply mem_false_In in H2. auto.
Qed.
Lemma c09_example : expressible false
   (NDocument [NElem (u "div") (Some (u "html")) [(u "id", Some (u "a""b"))] [NText (u "1<2"); NComment (u "--><b>"); NElem (u "br") (Some (u "html")) [] [] None] None]) /\
  to_html_compact (NDocument [NElem (u "div") (Some (u "html")) [(u "id", Some (u "a""b"))] [NText (u "1<2"); NComment (u "--><b>"); NElem (u "br") (Some (u "html")) [] [] None] None]) None
  = Ok (u "<div id='a""b'>1&lt;2<!--- -><b>--><br></div>").
Proof.
  split; [|reflexivity]. apply ex_document. intros c [<-|[]]. apply ex_data; [apply html_name_dec; reflexivity|reflexivity| |].
  - cbn. intuition discriminate.
  - intros c [<-|[<-|[<-|[]]]]; [constructor|constructor|]. apply ex_void; [apply html_name_dec; reflexivity|]. cbn. tauto.
Qed.
