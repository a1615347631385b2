(* PROOFS: the pretty printer, part 3: trees *)
From Coq Require Import Lia ZifyBool ZifyN ZifyNat ZArith.
From Verif Require Import ListFacts Str StrFacts HtmlCharRefSpec HtmlTokSpec TokFacts RawTextSpec SerializerModel SerTreeSpec
  SerEscapeProofs SerCommentProofs SerRawProofs SerTreeProofs MiscModel PrettyModel PrettySpec PrettyProofs PrettyLayout.
From Verif Require MiscSpaceProofs.
Open Scope list_scope. Open Scope N_scope.

(* ---------- collapsing joins nothing ---------- *)
Lemma loop_prefix w : forall s r, collapse_loop false s = w ++ r -> (forall c, In c w -> is_html_space c = false) -> exists r', s = w ++ r'.
Proof.
  induction w as [|c w IH]; intros s r E H; [exists s; reflexivity|]. destruct s as [|x s]; [discriminate E|]. cbn [collapse_loop] in E. destruct (is_html_space x) eqn:X.
  - exfalso. assert (Hc : c = 32) by (cbn in E; congruence). specialize (H c (or_introl eq_refl)). subst c. discriminate H.
  - cbn [app] in E. assert (x = c) as -> by congruence. assert (E' : collapse_loop false s = w ++ r) by congruence. destruct (IH s r E' (fun y I => H y (or_intror I))) as (r' & ->). exists r'. reflexivity.
Qed.
Lemma loop_infix s : forall b a w r, collapse_loop b s = a ++ w ++ r -> w <> [] -> (forall c, In c w -> is_html_space c = false) -> exists a' r', s = a' ++ w ++ r'.
Proof.
  induction s as [|x s IH]; intros b a w r E Hw H.
  - cbn in E. symmetry in E. apply app_eq_nil in E as [_ E]. apply app_eq_nil in E as [E _]. contradiction.
  - cbn [collapse_loop] in E. destruct (is_html_space x) eqn:X.
    + assert (Go : forall a0, collapse_loop true s = a0 ++ w ++ r -> exists a' r', x :: s = a' ++ w ++ r').
      { intros a0 E0. destruct (IH true a0 w r E0 Hw H) as (a' & r' & ->). exists (x :: a'), r'. reflexivity. }
      destruct b; [exact (Go a E)|]. destruct a as [|y a].
      * destruct w as [|c w]; [contradiction|]. exfalso. cbn [app] in E. assert (c = 32) by congruence. specialize (H c (or_introl eq_refl)). subst c. discriminate H.
      * cbn [app] in E. apply (Go a). congruence.
    + destruct a as [|y a].
      * destruct w as [|c w]; [contradiction|]. cbn [app] in E. assert (x = c) as -> by congruence. assert (E' : collapse_loop false s = w ++ r) by congruence.
        destruct (loop_prefix w s r E' (fun y I => H y (or_intror I))) as (r' & ->). exists [], r'. reflexivity.
      * cbn [app] in E. assert (E' : collapse_loop false s = a ++ w ++ r) by congruence. destruct (IH false a w r E' Hw H) as (a' & r' & ->). exists (x :: a'), r'. reflexivity.
Qed.
Lemma word_infix p s : forall acc v, In v (split_by_go p acc s) -> exists a r, rev acc ++ s = a ++ v ++ r.
Proof.
  induction s as [|c s IH]; intros acc v I; cbn [split_by_go] in I.
  - destruct acc as [|y acc]; [destruct I|]. destruct I as [<-|[]]. exists [], []. cbn [app]. reflexivity.
  - destruct (p c).
    + assert (Go : In v (split_by_go p [] s) -> exists a r, rev acc ++ c :: s = a ++ v ++ r).
      { intros J. destruct (IH [] v J) as (a & r & E). cbn [rev app] in E. exists (rev acc ++ c :: a), r. rewrite <- app_assoc. cbn [app]. rewrite E. reflexivity. }
      destruct acc as [|y acc]; [exact (Go I)|]. destruct I as [<-|I]; [|exact (Go I)]. exists [], (c :: s). reflexivity.
    + destruct (IH (c :: acc) v I) as (a & r & E). exists a, r. rewrite <- E. cbn [rev]. rewrite <- app_assoc. reflexivity.
Qed.
Lemma infix_sep (a w r x y : str) : a ++ w ++ r = x ++ 32 :: y -> ~ In 32 w -> w <> [] -> (exists a' r', x = a' ++ w ++ r') \/ (exists a' r', y = a' ++ w ++ r').
Proof.
  intros E H Hw. rewrite app_assoc in E. apply app_eq_app in E as (l & [[E1 E2]|[E1 E2]]).
  - (* aw = x ++ l, 32::y = l ++ r *)
    destruct l as [|c l]; [left; exists a, []; rewrite !app_nil_r in *; symmetry; exact E1|]. cbn [app] in E2. assert (c = 32) as -> by congruence. assert (Ey : y = l ++ r) by congruence.
    apply app_eq_app in E1 as (m & [[F1 F2]|[F1 F2]]).
    + (* a = x ++ m, 32 :: l = m ++ w *) destruct m as [|z m]; [cbn [app] in F2; exfalso; apply H; rewrite <- F2; left; reflexivity|]. cbn [app] in F2. right. exists m, r. rewrite Ey. assert (l = m ++ w) as -> by congruence. rewrite <- app_assoc. reflexivity.
    + (* x = a ++ m, w = m ++ 32::l *) exfalso. apply H. rewrite F2. apply in_or_app. right. left. reflexivity.
  - left. exists a, l. rewrite E1. rewrite <- app_assoc. reflexivity.
Qed.
Lemma join_infix ws : forall a w r, join (u " ") ws = a ++ w ++ r -> ~ In 32 w -> w <> [] -> exists v, In v ws /\ exists a' r', v = a' ++ w ++ r'.
Proof.
  induction ws as [|v ws IH]; intros a w r E H Hw.
  - symmetry in E. apply app_eq_nil in E as [_ E]. apply app_eq_nil in E as [E _]. contradiction.
  - destruct ws as [|v2 ws]; [exists v; split; [left; reflexivity|exists a, r; exact E]|].
    change (join (u " ") (v :: v2 :: ws)) with (v ++ 32 :: join (u " ") (v2 :: ws)) in E. symmetry in E. destruct (infix_sep a w r _ _ E H Hw) as [(a' & r' & F)|(a' & r' & F)].
    + exists v. split; [left; reflexivity|exists a', r'; exact F].
    + destruct (IH a' w r' F H Hw) as (x & I & K). exists x. split; [right; exact I|exact K].
Qed.
Lemma collapse_infix d a w r : collapse_html d = a ++ w ++ r -> w <> [] -> (forall c, In c w -> is_html_space c = false) -> exists a' r', d = a' ++ w ++ r'.
Proof.
  unfold collapse_html. destruct d as [|c0 d0]; [intros E Hw _; symmetry in E; apply app_eq_nil in E as [_ E]; apply app_eq_nil in E as [E _]; contradiction|].
  set (d := c0 :: d0). clearbody d. intros E Hw H. destruct (mem 11 d).
  - destruct (strip_split (fun c => mem c (u " ")) (collapse_loop false d)) as (x & y & F & _). unfold strip_chars in E. rewrite E in F. apply (loop_infix d false (x ++ a) w (r ++ y)); [|exact Hw|exact H]. rewrite F. rewrite <- !app_assoc. reflexivity.
  - destruct (join_infix _ a w r E) as (v & I & a' & r' & ->); [intros I; specialize (H 32 I); discriminate H|exact Hw|]. destruct (word_infix _ _ _ _ I) as (a2 & r2 & F). cbn [rev app] in F. exists (a2 ++ a'), (r' ++ r2). rewrite F, <- !app_assoc. reflexivity.
Qed.
Lemma alpha_not_space c : is_alpha_ascii c = true -> is_html_space c = false.
Proof. unfold is_alpha_ascii, is_upper_ascii, is_lower_ascii, is_html_space. lia. Qed.
Lemma alow_alpha_inv buf name : alow buf = name -> forallb is_alpha_ascii name = true -> forall c, In c buf -> is_alpha_ascii c = true.
Proof.
  intros <- H c I. unfold alow in H. rewrite forallb_forall in H. specialize (H (alow_c c) (in_map _ _ _ I)). unfold alow_c, is_alpha_ascii, is_upper_ascii, is_lower_ascii in *. destruct ((65 <=? c) && (c <=? 90)) eqn:E; lia.
Qed.
Lemma occurs_collapse name d : forallb is_alpha_ascii name = true -> occurs_end name (collapse_html d) -> occurs_end name d.
Proof.
  intros Hn (a & buf & b & E & Hb). change (a ++ 60 :: 47 :: buf ++ b) with (a ++ (60 :: 47 :: buf) ++ b) in E.
  destruct (collapse_infix d a (60 :: 47 :: buf) b E) as (a' & r' & ->); [discriminate| |].
  - intros c [<-|[<-|I]]; [reflexivity|reflexivity|]. apply alpha_not_space. exact (alow_alpha_inv buf name Hb Hn c I).
  - exists a', buf, r'. split; [reflexivity|exact Hb].
Qed.

(* ---------- elements whose content is text ---------- *)
Lemma sol_nul d : filter sol (map nul d) = map nul (filter sol d).
Proof.
  induction d as [|c d IH]; [reflexivity|]. cbn [map filter]. assert (E : sol (nul c) = sol c) by (unfold nul; destruct (N.eqb_spec c 0) as [->|]; reflexivity). rewrite E. destruct (sol c); cbn [map]; rewrite IH; reflexivity.
Qed.
Lemma view_lax d k : view false k (chars d) = [].
Proof. induction d as [|c d IH]; [reflexivity|]. change (chars (c :: d)) with (TChar c :: chars d). cbn [view negb orb]. exact IH. Qed.

Lemma eval_texts size ds p ind : eval_all (map (fun c => (c, pretty size c p)) (map NText ds)) ind true = Some (map (fun d => serialize_text_for_parent d p) ds).
Proof. induction ds as [|d ds IH]; [reflexivity|]. cbn [map eval_all]. rewrite IH. reflexivity. Qed.
Lemma texts_all ds : forallb is_text (map NText ds) = true. Proof. induction ds; [reflexivity|assumption]. Qed.
Lemma texts_data ds : flat_map (fun c => match c with NText d => d | _ => [] end) (map NText ds) = List.concat ds.
Proof. induction ds as [|d ds IH]; [reflexivity|]. cbn [map flat_map List.concat]. rewrite IH. reflexivity. Qed.
Lemma kids_fst size p l : map fst (map (fun c => (c, pretty size c p)) l) = l.
Proof. rewrite map_map. cbn [fst]. apply map_id. Qed.
Lemma text_content size name ns op cl ds ind pre s :
  pretty_content size name ns op cl (map (fun c => (c, pretty size c (Some (name, ns)))) (map NText ds)) ind pre = Some s ->
  s = (if pre then [] else pretty_indent ind size) ++ op ++
      (if pre || keeps_spaceb name then List.concat (map (fun d => serialize_text_for_parent d (Some (name, ns))) ds)
       else serialize_text_for_parent (collapse_html (List.concat ds)) (Some (name, ns))) ++ cl.
Proof.
  intros E. unfold pretty_content in E. rewrite eval_texts, kids_fst, texts_all, texts_data in E. change (in_strs name whitespace_preserving) with (keeps_spaceb name) in E.
  destruct ds as [|d ds]; [injection E as <-; destruct (pre || keeps_spaceb name); reflexivity|]. cbn [map] in E. cbn iota in E. destruct (pre || keeps_spaceb name); injection E as <-; reflexivity.
Qed.

Lemma w_element m c name ns attrs cs tc : In c (content name cs tc) -> within m c -> within m (NElem name ns attrs cs tc).
Proof. unfold content. destruct (str_eqb name (u "template")); [destruct tc|]; intros I W; [exact (w_template m c _ _ _ _ _ I W)|exact (w_child m c _ _ _ _ _ I W)|exact (w_child m c _ _ _ _ _ I W)]. Qed.

Section Main.
Variable strict sc : bool.
Variable size : Z.
Notation view := (view strict). Notation balanced := (balanced strict). Notation good := (good strict sc). Notation KI := (KI strict sc).

(* an element between its tags *)
Lemma elem_KI pre ind op cl name kv xs xc ts tc :
  cl = u "</" ++ name ++ u ">" -> (exists m, op = 60 :: m ++ [62]) ->
  (forall last rest, run sc O last Data ((op ++ xs ++ cl) ++ rest) = (TStart name kv false :: ts ++ [TEnd name]) ++ run sc O [] Data rest) ->
  (forall last rest, run sc O last Data ((op ++ xc ++ cl) ++ rest) = (TStart name kv false :: tc ++ [TEnd name]) ++ run sc O [] Data rest) ->
  balanced ts -> balanced tc -> (pre = true -> ts = tc) ->
  view (if keeps_spaceb name then 1%nat else 0%nat) ts = view (if keeps_spaceb name then 1%nat else 0%nat) tc ->
  exists tc' ts', reads sc (op ++ xc ++ cl) tc' /\ balanced tc' /\ good ((if pre : bool then [] else pretty_indent ind size) ++ op ++ xs ++ cl) ts' /\ (pre = true -> ts' = tc') /\ view 0 ts' = view 0 tc'.
Proof.
  intros -> Ho Rs Rc Bs Bc Ep V. exists (TStart name kv false :: tc ++ [TEnd name]), (chars (if pre then [] else pretty_indent ind size) ++ (TStart name kv false :: ts ++ [TEnd name])).
  split; [exact Rc|]. split; [exact (bal_elem strict name kv false tc Bc)|]. split; [|split].
  - apply good_app; [apply good_bl; destruct pre; [intros c []|apply bl_indent]|]. apply good_piece; [exact Rs|exact (bal_elem strict name kv false ts Bs)|exact (elem_shape op xs name Ho)].
  - intros P. rewrite P, (Ep P). reflexivity.
  - rewrite (bal_chars strict _ 0%nat). rewrite (bl_view strict) by (destruct pre; [intros c []|apply bl_indent]). cbn [app]. rewrite !elem_view by assumption. rewrite V. reflexivity.
Qed.

Lemma simple_KI (pre : bool) ind c t : reads sc c [t] -> balanced [t] -> (exists m, c = 60 :: m ++ [62]) ->
  exists tc ts, reads sc c tc /\ balanced tc /\ good ((if pre then [] else pretty_indent ind size) ++ c) ts /\ (pre = true -> ts = tc) /\ view 0 ts = view 0 tc.
Proof.
  intros R B Sh. exists [t], (chars (if pre then [] else pretty_indent ind size) ++ [t]). split; [exact R|]. split; [exact B|]. split; [|split].
  - apply good_app; [apply good_bl; destruct pre; [intros x []|apply bl_indent]|]. apply good_piece; assumption.
  - intros ->. reflexivity.
  - rewrite (bal_chars strict _ 0%nat). rewrite (bl_view strict) by (destruct pre; [intros x []|apply bl_indent]). reflexivity.
Qed.
Lemma doctype_shape d : exists m, serialize_doctype d = 60 :: m ++ [62].
Proof.
  unfold serialize_doctype. destruct (match d with DNone => _ | DStr s => _ | DObj d => _ end) as [[n p] sy].
  match goal with |- exists m, u "<!DOCTYPE" ++ ?a ++ ?b ++ [62] = _ => exists (u "!DOCTYPE" ++ a ++ b); generalize a, b; intros x y end.
  change (u "<!DOCTYPE") with (60 :: u "!DOCTYPE"). cbn [app]. rewrite <- !app_assoc. reflexivity.
Qed.
Lemma good_as s s' ts : s = s' -> good s ts -> good s' ts. Proof. intros ->. auto. Qed.

Theorem pretty_KI n : expressible sc n -> (strict = true -> quiet n) -> no_document n -> forall p, okparent sc p -> KI p (n, pretty size n p).
Proof.
  induction n as [d|d|d|d|cs IH|name ns attrs cs tc IH IHt] using node_ind'; intros Hex Hqu Hnd p Hp ind pre s Es; cbn [fst snd] in *.
  - (* text *)
    cbn [pretty] in Es. exists (flat_map esc1 d), (chars d). assert (T : forall x, serialize_text_for_parent x p = flat_map esc1 x).
    { intros x. pose proof (text_ser sc p Hp x) as E. cbn [ser] in E. congruence. }
    assert (R : reads sc (flat_map esc1 d) (chars d)) by (rewrite <- T; apply text_reads; exact Hp).
    destruct pre.
    + apply Some_inj in Es. subst s. exists (chars d). rewrite T. split; [exact (text_ser sc p Hp d)|]. split; [exact R|]. split; [apply bal_chars|]. split; [apply good_text|]. split; reflexivity.
    + exists (if blank d then [] else chars (pretty_indent ind size) ++ chars (strip d)). split; [exact (text_ser sc p Hp d)|]. split; [exact R|]. split; [apply bal_chars|].
      pose proof (sol_strip d) as S0. unfold blank. destruct (strip d) as [|c t].
      * apply Some_inj in Es. subst s. split; [apply good_nil|]. split; [discriminate|]. exact (view_same strict [] d S0).
      * apply Some_inj in Es. subst s. rewrite T. split; [apply good_app; [apply good_bl, bl_indent|apply good_text]|]. split; [discriminate|].
        rewrite (bal_chars strict _ 0%nat), (bl_view strict) by apply bl_indent. cbn [app]. exact (view_same strict _ _ S0).
  - (* comment *)
    cbn [pretty] in Es. apply Some_inj in Es. subst s. exists (u "<!--" ++ serialize_comment_data d ++ u "-->").
    destruct (simple_KI pre ind (u "<!--" ++ serialize_comment_data d ++ u "-->") (TComment (map nul (serialize_comment_data d)))) as (tc & ts & K).
    + intros last rest. rewrite <- !app_assoc, serialized_comment_reads, data_last. reflexivity.
    + apply bal_one. exact Logic.I.
    + exists (u "!--" ++ serialize_comment_data d ++ u "--"). change (u "<!--") with (60 :: u "!--"). change (u "-->") with (u "--" ++ [62]). cbn [app]. rewrite <- !app_assoc. reflexivity.
    + exists tc, ts. split; [reflexivity|exact K].
  - (* processing instruction *)
    cbn [pretty] in Es. apply Some_inj in Es. subst s. exists (u "<?" ++ serialize_pi_data d ++ u "?>").
    destruct (simple_KI pre ind (u "<?" ++ serialize_pi_data d ++ u "?>") (TComment (63 :: map nul (serialize_pi_data d) ++ [63]))) as (tc & ts & K).
    + intros last rest. rewrite <- !app_assoc, pi_reads, data_last. reflexivity.
    + apply bal_one. exact Logic.I.
    + exists (u "?" ++ serialize_pi_data d ++ u "?"). change (u "<?") with (60 :: u "?"). change (u "?>") with (u "?" ++ [62]). cbn [app]. rewrite <- !app_assoc. reflexivity.
    + exists tc, ts. split; [reflexivity|exact K].
  - (* doctype *)
    cbn [pretty] in Es. apply Some_inj in Es. subst s. exists (serialize_doctype d). destruct (doctype_reads d) as (a & b & c & q & E).
    destruct (simple_KI pre ind (serialize_doctype d) (TDoctype a b c q)) as (tc & ts & K).
    + intros last rest. rewrite E, data_last. reflexivity.
    + apply bal_one. exact Logic.I.
    + apply doctype_shape.
    + exists tc, ts. split; [reflexivity|exact K].
  - exfalso. exact (Hnd cs (w_self _)).
  - cbn [pretty] in Es. rewrite ser_elem. destruct (serialize_start_tag default_opts ns name attrs) as [op|] eqn:Eop; [|discriminate Es].
    assert (Hns : ns = Some (u "html") /\ html_name name) by (inversion Hex; subst; auto). destruct Hns as [-> Hn].
    destruct (start_reads sc name _ attrs op Hn Eop) as (kvs & Hk & Hrun). pose proof (open_shape _ _ _ _ Eop) as Hsh.
    rewrite content_children. cbn [fst snd].
    change (str_eqb (u "html") (u "html")) with true in Es. rewrite andb_true_r in Es.
    set (q := if str_eqb name (u "template") then match tc with Some _ => None | None => Some (name, Some (u "html")) end else Some (name, Some (u "html"))).
    assert (Ek : (if str_eqb name (u "template") then match tc with
                         | Some l => map (fun c => (c, pretty size c None)) l
                         | None => map (fun c => (c, pretty size c (Some (name, Some (u "html"))))) cs
                         end
                    else map (fun c => (c, pretty size c (Some (name, Some (u "html"))))) cs) = map (fun c => (c, pretty size c q)) (content name cs tc)).
    { unfold q, content. destruct (str_eqb name (u "template")); [destruct tc|]; reflexivity. }
    rewrite Ek in Es. clear Ek.
    inversion Hex as [| | | | |name' attrs' tc' Hn' Hv|name' attrs' cs' tc' Hn' Hd Hv Hcs|name' attrs' ds tc' Hn' Hr|name' attrs' tc' Hn' Hr Hno|name' attrs' d tc' Hn' Hr Hno|name' attrs' d tc' Hn' Hr Hh]; subst name' attrs'; try subst cs'; try subst cs; subst tc'.
    + (* void *)
      assert (Ev : in_strs name void_elements = true) by (apply in_strs_In; exact Hv). rewrite Ev in *. apply Some_inj in Es. subst s. exists op.
      destruct (simple_KI pre ind op (TStart name (first_wins kvs) false)) as (tc' & ts & K).
      * intros last rest. rewrite Hrun, (void_not_raw name Hv sc), data_last. reflexivity.
      * apply bal_void. cbn [In void_elements] in Hv. repeat (destruct Hv as [<-|Hv]; [reflexivity|]). destruct Hv.
      * exact Hsh.
      * exists tc', ts. split; [reflexivity|exact K].
    + (* ordinary *)
      assert (Ev : in_strs name void_elements = false) by (destruct (in_strs name void_elements) eqn:E; [apply in_strs_In in E; contradiction|reflexivity]).
      rewrite Ev in *.
      assert (Hq : okparent sc q) by (unfold q; destruct (str_eqb name (u "template")); [destruct tc|]; cbn; auto).
      assert (K : Forall (KI q) (map (fun c => (c, pretty size c q)) (content name cs tc))).
      { apply Forall_forall. intros k Ik. apply in_map_iff in Ik as (c & <- & Ic). 
        assert (IHc : Forall (fun n => expressible sc n -> (strict = true -> quiet n) -> no_document n -> forall p, okparent sc p -> KI p (n, pretty size n p)) (content name cs tc)).
        { unfold content. destruct (str_eqb name (u "template")); [|exact IH]. destruct tc; [apply IHt; reflexivity|exact IH]. }
        rewrite Forall_forall in IHc. apply (IHc c Ic (Hcs c Ic)); [| |exact Hq].
        - intros S0. intros name2 ns2 attrs2 d tc2 I W. apply (Hqu S0 name2 ns2 attrs2 d tc2 I). apply (w_element _ c); assumption.
        - intros cs2 W. apply (Hnd cs2). apply (w_element _ c); assumption. }
      assert (Pl : plainkids (map (fun c => (c, pretty size c q)) (content name cs tc))).
      { intros k Ik R. apply in_map_iff in Ik as (c & <- & Ic). cbn [fst] in *. destruct c as [d|d|d|d|cs2|name2 ns2 attrs2 cs2 tc2]; try discriminate R.
        - apply blank_hush. cbn. cbn [renders_nonempty] in R. apply negb_false_iff in R. exact R.
        - exfalso. apply (Hnd cs2). apply (w_element _ (NDocument cs2)); [exact Ic|constructor]. }
      destruct (content_res strict sc q Hq size name (Some (u "html")) op (u "</" ++ name ++ u ">") _ ind pre s K Pl) as (x & -> & tc0 & ts & A & B & C & D).
      { intros d. apply (text_in_data sc); auto. }
      { exact Es. }
      rewrite kids_fst in A. destruct (SL_sers _ _ _ _ _ A) as (c & Ec & Rc & Bc). rewrite Ec. exists (op ++ c ++ u "</" ++ name ++ u ">").
      destruct (elem_KI pre ind op (u "</" ++ name ++ u ">") name (first_wins kvs) x c ts tc0) as (tc' & ts' & R); try assumption; try reflexivity.
      * intros last rest. rewrite <- app_assoc, Hrun. unfold data_name in Hd. rewrite Hd. rewrite <- app_assoc, (good_reads strict sc _ _ B), end_reads by exact Hn. cbn [app]. rewrite <- !app_assoc. reflexivity.
      * intros last rest. rewrite <- app_assoc, Hrun. unfold data_name in Hd. rewrite Hd. rewrite <- app_assoc, Rc, end_reads by exact Hn. cbn [app]. rewrite <- !app_assoc. reflexivity.
      * exact (good_bal _ _ _ _ B).
      * exists tc', ts'. split; [reflexivity|exact R].
    + (* RCDATA *)
      destruct (not_template sc name) as [Et Ev]; [auto|]. rewrite Ev in *. unfold q in *. unfold content in *. rewrite Et in *. clear q.
      apply text_content in Es. subst s. rewrite (sers_texts sc) by assumption. exists (op ++ flat_map esc1 (List.concat ds) ++ u "</" ++ name ++ u ">").
      assert (T : forall d, serialize_text_for_parent d (Some (name, Some (u "html"))) = flat_map esc1 d) by (intros d; rewrite <- escape_text_flat; apply (text_in_data sc); auto).
      set (X := if pre || keeps_spaceb name then _ else _).
      assert (EX : X = flat_map esc1 (if pre || keeps_spaceb name then List.concat ds else collapse_html (List.concat ds))).
      { unfold X. destruct (pre || keeps_spaceb name); [|apply T]. clear - T. induction ds as [|d ds IH]; [reflexivity|]. cbn [map List.concat]. rewrite IH, T, flat_map_app. reflexivity. }
      rewrite EX. clear X EX.
      assert (R : forall Y last rest, run sc 0 last Data ((op ++ flat_map esc1 Y ++ u "</" ++ name ++ u ">") ++ rest) = (TStart name (first_wins kvs) false :: chars (map nul Y) ++ [TEnd name]) ++ run sc 0 [] Data rest).
      { intros Y last rest. rewrite <- app_assoc, Hrun. pose proof Hr as Hsw. unfold rcdata_name in Hr. rewrite Hr. rewrite <- app_assoc, run_rcdata_esc. rewrite rcdata_end.
        - cbn [app]. rewrite <- app_assoc. reflexivity.
        - apply switch_cases in Hsw. destruct Hsw as [[H1 H2]|[[H1 H2]|[[H1 H2]|[[H1 H2]|[H1 [H2 H3]]]]]]; try discriminate H1; exact H2. }
      destruct (elem_KI pre ind op (u "</" ++ name ++ u ">") name (first_wins kvs) (flat_map esc1 (if pre || keeps_spaceb name then List.concat ds else collapse_html (List.concat ds))) (flat_map esc1 (List.concat ds))
        (chars (map nul (if pre || keeps_spaceb name then List.concat ds else collapse_html (List.concat ds)))) (chars (map nul (List.concat ds)))) as (tc' & ts' & Z); try reflexivity; try assumption.
      * apply R.
      * apply R.
      * apply bal_chars.
      * apply bal_chars.
      * intros ->. reflexivity.
      * destruct (keeps_spaceb name); [rewrite orb_true_r; reflexivity|]. destruct pre; [reflexivity|]. cbn [orb]. apply view_same. rewrite !sol_nul, sol_collapse. reflexivity.
      * exists tc', ts'. split; [reflexivity|exact Z].
    + (* empty raw text *)
      destruct (not_template sc name) as [Et Ev]; [tauto|]. rewrite Ev in *. unfold q in *. unfold content in *. rewrite Et in *. clear q.
      cbn [map pretty_content] in Es. apply Some_inj in Es. subst s. cbn [sers]. exists (op ++ [] ++ u "</" ++ name ++ u ">").
      assert (Hb : exists b, raw_base sc name b) by (destruct Hr; [exists RRawtext; left|exists RScript; right]; auto). destruct Hb as (b & Hb).
      assert (R : forall last rest, run sc 0 last Data ((op ++ [] ++ u "</" ++ name ++ u ">") ++ rest) = (TStart name (first_wins kvs) false :: [] ++ [TEnd name]) ++ run sc 0 [] Data rest).
      { intros last rest. rewrite <- app_assoc, Hrun. rewrite (raw_reads sc name b [] rest Hb Hno); [reflexivity| |].
        - intros (a & buf & c & b0 & E & _). destruct a; discriminate E.
        - intros _ (a & b0 & buf & c & d & E & _). destruct a; discriminate E. }
      destruct (elem_KI pre ind op (u "</" ++ name ++ u ">") name (first_wins kvs) [] [] [] []) as (tc' & ts' & Z); try reflexivity; try assumption; try apply bal_nil.
      exists tc', ts'. split; [reflexivity|exact Z].
    + (* raw text *)
      destruct (not_template sc name) as [Et Ev]; [auto|]. rewrite Ev in *. unfold q in *. unfold content in *. rewrite Et in *. clear q.
      assert (Hin : In name [u "style"; u "xmp"; u "iframe"; u "noembed"; u "noframes"; u "script"]) by (apply (raw_names sc); auto).
      destruct (raw_name_props name Hin) as (P1 & P2 & P3 & _).
      pose proof (text_content size name (Some (u "html")) op (u "</" ++ name ++ u ">") [d] ind pre s Es) as E. clear Es. subst s. cbn [map List.concat]. rewrite !app_nil_r.
      cbn [sers ser cat_opt]. rewrite !text_in_raw by exact Hin. rewrite !app_nil_r. exists (op ++ neutralize d name ++ u "</" ++ name ++ u ">").
      set (Y := if pre || keeps_spaceb name then d else collapse_html d).
      replace (if pre || keeps_spaceb name then neutralize d name else neutralize (collapse_html d) name) with (neutralize Y name) by (unfold Y; destruct (pre || keeps_spaceb name); reflexivity).
      assert (R : forall Y last rest, run sc 0 last Data ((op ++ neutralize Y name ++ u "</" ++ name ++ u ">") ++ rest) = (TStart name (first_wins kvs) false :: chars (map nul (neutralize Y name)) ++ [TEnd name]) ++ run sc 0 [] Data rest).
      { intros Z last rest. rewrite <- app_assoc, Hrun. rewrite (raw_reads sc name RRawtext _ rest); [cbn [app]; rewrite <- app_assoc; reflexivity|left; auto|exact Hno| |discriminate]. apply neutralize_not_closes; exact P1. }
      destruct (elem_KI pre ind op (u "</" ++ name ++ u ">") name (first_wins kvs) (neutralize Y name) (neutralize d name) (chars (map nul (neutralize Y name))) (chars (map nul (neutralize d name)))) as (tc' & ts' & Z); try reflexivity; try assumption; try apply bal_chars.
      * apply R.
      * apply R.
      * intros ->. reflexivity.
      * unfold Y. destruct (keeps_spaceb name) eqn:Ks; [rewrite orb_true_r; reflexivity|]. destruct pre; [reflexivity|]. cbn [orb].
        destruct strict; [|rewrite !view_lax; reflexivity].
        assert (Qd : ~ occurs_end name d).
        { apply (Hqu eq_refl name (Some (u "html")) attrs d tc); [|constructor]. cbn [In] in Hin |- *. repeat (destruct Hin as [<-|Hin]; [try discriminate Ks; tauto|]). destruct Hin. }
        rewrite (neutralize_same name d P1 Qd). rewrite (neutralize_same name (collapse_html d) P1) by (intros O; exact (Qd (occurs_collapse name d P1 O))).
        apply view_same. rewrite !sol_nul, sol_collapse. reflexivity.
      * exists tc', ts'. split; [reflexivity|]. unfold Y in Z. destruct (pre || keeps_spaceb name); exact Z.
    + (* script *)
      destruct (not_template sc name) as [Et Ev]; [auto|]. rewrite Ev in *. unfold q in *. unfold content in *. rewrite Et in *. clear q.
      assert (Hno : name <> u "noscript") by (intros ->; destruct sc; discriminate Hr).
      assert (Hin : In name [u "style"; u "xmp"; u "iframe"; u "noembed"; u "noframes"; u "script"]) by (apply (raw_names sc); auto).
      destruct (raw_name_props name Hin) as (P1 & P2 & P3 & _).
      assert (Enm : name = u "script").
      { pose proof Hr as Hs. apply switch_cases in Hs. destruct Hs as [[H1 H2]|[[H1 H2]|[[H1 H2]|[[H1 H2]|[H1 [H2 H3]]]]]]; try discriminate H1; exact H2. }
      assert (Ks : keeps_spaceb name = true) by (rewrite Enm; reflexivity).
      pose proof (text_content size name (Some (u "html")) op (u "</" ++ name ++ u ">") [d] ind pre s Es) as E. clear Es. subst s. cbn [map List.concat]. rewrite !app_nil_r.
      cbn [sers ser cat_opt]. rewrite !text_in_raw by exact Hin. rewrite !app_nil_r. exists (op ++ neutralize d name ++ u "</" ++ name ++ u ">").
      rewrite Ks, orb_true_r.
      assert (R : forall last rest, run sc 0 last Data ((op ++ neutralize d name ++ u "</" ++ name ++ u ">") ++ rest) = (TStart name (first_wins kvs) false :: chars (map nul (neutralize d name)) ++ [TEnd name]) ++ run sc 0 [] Data rest).
      { intros last rest. rewrite <- app_assoc, Hrun. rewrite (raw_reads sc name RScript _ rest); [cbn [app]; rewrite <- app_assoc; reflexivity|right; auto|exact Hno| |].
        - apply neutralize_not_closes; exact P1.
        - intros _ Hhid. apply Hh. apply (neutralize_hides name); assumption. }
      destruct (elem_KI pre ind op (u "</" ++ name ++ u ">") name (first_wins kvs) (neutralize d name) (neutralize d name) (chars (map nul (neutralize d name))) (chars (map nul (neutralize d name)))) as (tc' & ts' & Z); try reflexivity; try assumption; try apply bal_chars.
      exists tc', ts'. split; [reflexivity|exact Z].
Qed.
End Main.
