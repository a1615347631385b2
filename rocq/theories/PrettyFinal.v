(* PROOFS: the pretty printer, part 4: whole documents; when it raises *)
From Coq Require Import Lia ZifyBool ZifyN ZifyNat ZArith.
From Verif Require Import ListFacts Str StrFacts HtmlCharRefSpec HtmlTokSpec TokFacts RawTextSpec SerializerModel SerTreeSpec
  SerEscapeProofs SerCommentProofs SerRawProofs SerTreeProofs MiscModel PrettyModel PrettySpec PrettyProofs PrettyLayout PrettyMain.
Open Scope list_scope. Open Scope N_scope.

Section Doc.
Variable strict sc : bool.
Variable size : Z.
Notation Res := (Res strict sc None).
Inductive pieces : list node -> list str -> Prop :=
| pi_nil : pieces [] []
| pi_cons n l s ss : Res [n] s -> pieces l ss -> pieces (n :: l) (s :: ss).
Lemma eval_pieces ind kids : Forall (KI strict sc None) kids -> forall l, eval_all kids ind false = Some l -> pieces (map fst kids) l.
Proof.
  induction 1 as [|k kids K H IH]; intros l E; cbn [eval_all] in E; [injection E as <-; constructor|].
  destruct k as [n r]. destruct (r ind false) as [a|] eqn:Ea; [|discriminate E]. destruct (eval_all kids ind false) as [m|]; [|discriminate E]. injection E as <-.
  cbn [map fst]. constructor; [|exact (IH m eq_refl)]. exact (kid_res strict sc None (n, r) ind a K Ea).
Qed.
Lemma Res_nl l s : Res l s -> Res l (10 :: s).
Proof. intros H. apply (Res_app strict sc None [] l [10] s); [|exact H]. apply Res_blank. intros c [<-|[]]. right. reflexivity. Qed.
Lemma pieces_join l ss : pieces l ss -> Res l (join [10] ss).
Proof.
  induction 1 as [|n l s ss A H IH]; [apply Res_nil|]. change (n :: l) with ([n] ++ l). destruct ss as [|s2 ss].
  - rewrite <- (app_nil_r (join [10] [s])). apply Res_app; [exact A|exact IH].
  - change (join [10] (s :: s2 :: ss)) with (s ++ 10 :: join [10] (s2 :: ss)). apply Res_app; [exact A|apply Res_nl, IH].
Qed.
Lemma pieces_filter l ss : pieces l ss -> Res l (join [10] (filter (fun s => negb (is_nil s)) ss)).
Proof.
  induction 1 as [|n l s ss A H IH]; [apply Res_nil|]. change (n :: l) with ([n] ++ l). cbn [filter]. destruct s as [|c s]; cbn [is_nil negb].
  - exact (Res_app strict sc None [n] l [] _ A IH).
  - set (ss' := filter (fun s : list N => negb (is_nil s)) ss) in *. destruct ss' as [|s2 ss'].
    + rewrite <- (app_nil_r (join [10] [c :: s])). apply Res_app; [exact A|exact IH].
    + change (join [10] ((c :: s) :: s2 :: ss')) with ((c :: s) ++ 10 :: join [10] (s2 :: ss')). apply Res_app; [exact A|apply Res_nl, IH].
Qed.
Lemma top_Res n frag ind s : expressible sc n -> (strict = true -> quiet n) -> document_on_top n -> to_html_pretty frag n None ind size = Some s ->
  exists c tc ts, ser n None = Some c /\ reads sc c tc /\ reads sc s ts /\ view strict 0 ts = view strict 0 tc.
Proof.
  intros Hex Hqu Hdoc E.
  assert (One : no_document n -> pretty size n None ind false = Some s -> exists c tc ts, ser n None = Some c /\ reads sc c tc /\ reads sc s ts /\ view strict 0 ts = view strict 0 tc).
  { intros Hn E1. destruct (pretty_KI strict sc size n Hex Hqu Hn None Logic.I ind false s E1) as (c & tc & ts & A & B & _ & C & _ & D). exists c, tc, ts. split; [exact A|]. split; [exact B|]. split; [exact (good_reads strict sc _ _ C)|exact D]. }
  destruct n as [d|d|d|d|cs|name ns attrs cs tc]; try (apply One; [exact Hdoc|exact E]). clear One.
  inversion Hex as [| | | |cs' Hcs| | | | | |]; subst cs'. cbn [document_on_top] in Hdoc.
  assert (K : Forall (KI strict sc None) (map (fun c => (c, pretty size c None)) cs)).
  { apply Forall_forall. intros k Ik. apply in_map_iff in Ik as (c & <- & Ic). apply pretty_KI; [exact (Hcs c Ic)| |exact (Hdoc c Ic)|exact Logic.I].
    intros S0 name ns attrs d tc I W. apply (Hqu S0 name ns attrs d tc I). apply (w_document _ c); assumption. }
  assert (R : Res cs s).
  { cbn [to_html_pretty pretty] in E. destruct frag.
    - destruct (eval_all (map (fun c => (c, pretty size c None)) cs) ind false) as [l|] eqn:El; [|discriminate E]. cbn [option_map] in E. apply Some_inj in E. subst s.
      pose proof (eval_pieces ind _ K l El) as P. rewrite kids_fst in P. exact (pieces_filter cs l P).
    - destruct (eval_all (map (fun c => (c, pretty size c None)) cs) ind false) as [l|] eqn:El; [|discriminate E]. cbn [option_map] in E. apply Some_inj in E. subst s.
      pose proof (eval_pieces ind _ K l El) as P. rewrite kids_fst in P. exact (pieces_join cs l P). }
  destruct R as (tc & ts & A & B & C). destruct (SL_sers _ _ _ _ _ A) as (c & Ec & Rc & _). exists c, tc, ts. rewrite ser_document. split; [exact Ec|]. split; [exact Rc|]. split; [exact (good_reads strict sc _ _ B)|exact C].
Qed.
End Doc.
Lemma reads_run sc s ts : reads sc s ts -> run sc O [] Data s = ts.
Proof. intros H. rewrite <- (app_nil_r s), H. cbn [run eof]. apply app_nil_r. Qed.

(* ---------- when it raises ---------- *)
Definition works (k : kid) : Prop := forall ind pre, snd k ind pre <> None.
Definition workpart (p : part) : Prop := eval_part p <> None.
Lemma opt_cat_works a b : a <> None -> b <> None -> opt_cat a b <> None.
Proof. destruct a, b; try congruence. discriminate. Qed.
Lemma parts_work ps : Forall workpart ps -> eval_parts ps <> None.
Proof. induction 1 as [|p ps A H IH]; [discriminate|]. cbn [eval_parts]. apply opt_cat_works; assumption. Qed.
Definition workline (l : line) : Prop := Forall workpart (snd (fst l)).
Lemma lines_work skip ls : Forall workline ls -> eval_lines skip ls <> None.
Proof.
  induction 1 as [|[[p ps] st] ls A H IH]; [discriminate|]. cbn [eval_lines]. pose proof (parts_work ps A) as B. destruct (eval_parts ps); [|congruence]. apply opt_cat_works; [discriminate|exact IH].
Qed.
Lemma wrap_lines_work pf op cl ls skip : Forall workline ls -> wrap_lines pf op cl ls skip <> None.
Proof. intros H. apply opt_cat_works; [discriminate|]. apply opt_cat_works; [exact (lines_work skip ls H)|discriminate]. Qed.
Lemma wrap_parts_work pf op cl ps : Forall workpart ps -> wrap_parts pf op cl ps <> None.
Proof. intros H. apply opt_cat_works; [discriminate|]. apply opt_cat_works; [exact (parts_work ps H)|discriminate]. Qed.
Lemma child_work k ind : works k -> workpart (Child (snd k) ind). Proof. intros H. exact (H ind false). Qed.
Lemma lit_work s : workpart (Lit s). Proof. discriminate. Qed.
Lemma eval_all_work kids ind pre : Forall works kids -> eval_all kids ind pre <> None.
Proof. induction 1 as [|[n r] kids A H IH]; [discriminate|]. cbn [eval_all]. specialize (A ind pre). cbn [snd] in A. destruct (r ind pre); [|congruence]. destruct (eval_all kids ind pre); [discriminate|congruence]. Qed.
Lemma kids_lines_work ind kids : Forall works kids -> Forall workline (map (fun k => ([], [Child (snd k) ind], false)) kids).
Proof. induction 1 as [|k kids A H IH]; constructor; [constructor; [exact (child_work k ind A)|constructor]|exact IH]. Qed.
Lemma flush_work ind size inl : Forall workpart inl -> Forall workline (flush ind size inl).
Proof. intros H. destruct inl as [|p inl]; [constructor|]. unfold flush. constructor; [|constructor]. unfold workline. cbn [fst snd]. apply Forall_rev. exact H. Qed.
Lemma mixed_work ind size kids : Forall works kids -> forall first inl, Forall workpart inl -> Forall workline (mixed_lines ind size first inl kids).
Proof.
  induction 1 as [|k kids A H IH]; intros first inl P; cbn [mixed_lines]; [apply flush_work, P|].
  assert (Oth : Forall workline (if is_layout_blocky (fst k)
      then flush ind size inl ++ ([], [Child (snd k) (ind + 1)%Z], false) :: mixed_lines ind size false [] kids
      else mixed_lines ind size false (Child (snd k) 0%Z :: inl) kids)).
  { destruct (is_layout_blocky (fst k)); [|apply IH; constructor; [exact (child_work k _ A)|exact P]]. apply Forall_app. split; [apply flush_work, P|]. constructor; [constructor; [exact (child_work k _ A)|constructor]|]. apply IH. constructor. }
  destruct (fst k) as [d|d|d|d|cs|name ns attrs cs tc]; try exact Oth.
  destruct (blank d); [|apply IH; constructor; [apply lit_work|exact P]]. destruct (first || is_nil kids); [apply IH, P|]. destruct (line_space d); [|apply IH; constructor; [apply lit_work|exact P]].
  apply Forall_app. split; [apply flush_work, P|apply IH; constructor].
Qed.
Lemma compact_work kids : Forall works kids -> forall first, Forall workpart (compact_parts first kids).
Proof.
  induction 1 as [|k kids A H IH]; intros first; [constructor|]. cbn [compact_parts].
  destruct (fst k) as [d|d|d|d|cs|name ns attrs cs tc]; try (constructor; [exact (child_work k _ A)|apply IH]).
  destruct (_ && _); [apply IH|]. destruct (_ && _); constructor; try apply lit_work; apply IH.
Qed.
Lemma element_work ind size kids : Forall works kids -> Forall workline (flat_map (element_line ind size) kids).
Proof.
  induction 1 as [|k kids A H IH]; [constructor|]. cbn [flat_map]. apply Forall_app. split; [|exact IH]. unfold element_line.
  assert (Oth : Forall workline (if renders_nonempty (fst k) then [([], [Child (snd k) (ind + 1)%Z], false)] else [])).
  { destruct (renders_nonempty (fst k)); constructor; [|constructor]. constructor; [exact (child_work k _ A)|constructor]. }
  destruct (fst k) as [d|d|d|d|cs|name ns attrs cs tc]; try exact Oth. destruct (collapse_html d); constructor; [|constructor]. constructor; [apply lit_work|constructor].
Qed.
Lemma run_part_work k : works k -> workpart (run_part k).
Proof. intros A. unfold run_part. destruct (fst k) as [d|d|d|d|cs|name ns attrs cs tc]; try exact (child_work k _ A). destruct (blank d); apply lit_work. Qed.
Lemma run_line_work ind size run ln : Forall works run -> run_line ind size run = Some ln -> workline ln.
Proof.
  intros K E. unfold run_line in E. destruct (_ && _); [discriminate E|].
  assert (Gen : forall s, workline (s, map run_part run, false)) by (intros s; unfold workline; cbn [fst snd]; clear - K; induction K; constructor; [apply run_part_work; assumption|assumption]).
  destruct run as [|[n r] [|k2 run]]; [injection E as <-; apply Gen| |destruct n; injection E as <-; apply Gen].
  inversion K as [|? ? Kk _]; subst. destruct n; injection E as <-; try apply Gen; (constructor; [exact (child_work (_, r) _ Kk)|constructor]).
Qed.
Lemma run_lines_work ind size rs : Forall (Forall works) rs -> forall ls, run_lines ind size rs = Some ls -> Forall workline ls.
Proof.
  induction 1 as [|r rs K H IH]; intros ls E; cbn [run_lines] in E; [injection E as <-; constructor|].
  destruct (run_line ind size r) as [ln|] eqn:E1; [|discriminate E]. destruct (run_lines ind size rs) as [l|]; [|discriminate E]. injection E as <-. constructor; [exact (run_line_work ind size r ln K E1)|exact (IH l eq_refl)].
Qed.
Lemma content_works size name ns op cl kids ind pre : Forall works kids -> pretty_content size name ns op cl kids ind pre <> None.
Proof.
  intros K. unfold pretty_content. destruct kids as [|k0 kids0]; [discriminate|]. set (kids := k0 :: kids0) in *. clearbody kids.
  destruct (pre || _). { pose proof (eval_all_work kids (ind + 1)%Z true K) as E. destruct (eval_all kids (ind + 1)%Z true); [discriminate|congruence]. }
  destruct (forallb _ _); [discriminate|].
  set (sl := if in_strs name special_elements then special_lines ind size kids else None).
  assert (S1 : forall ls, sl = Some ls -> Forall workline ls).
  { unfold sl. intros ls E. destruct (in_strs name special_elements); [|discriminate E]. unfold special_lines in E. destruct (_ && _).
    - injection E as <-. apply kids_lines_work. apply Forall_forall. intros k I. apply filter_In in I as [I _]. rewrite Forall_forall in K. exact (K k I).
    - destruct (_ && _); [|discriminate E]. destruct (run_lines ind size (runs kids)) as [[|ln l]|] eqn:R; try discriminate E. injection E as <-. apply (run_lines_work ind size (runs kids)); [|exact R].
      apply Forall_forall. intros r Ir. apply Forall_forall. intros k Ik. rewrite Forall_forall in K. apply K. apply (sub_In _ _ (runs_sub kids)). apply in_concat. exists r. split; assumption. }
  clearbody sl. destruct sl as [ls|]; [apply wrap_lines_work, S1; reflexivity|].
  destruct (should_indent (map fst kids)).
  { apply wrap_lines_work, kids_lines_work. apply Forall_forall. intros k I. apply filter_In in I as [I _]. rewrite Forall_forall in K. exact (K k I). }
  set (sm := if in_strs name special_elements then special_mixed ind size kids else None).
  assert (S2 : forall ls, sm = Some ls -> Forall workline ls).
  { unfold sm. intros ls E. destruct (in_strs name special_elements); [|discriminate E]. unfold special_mixed in E. destruct (existsb is_comment (map fst kids)); [discriminate E|]. destruct (_ && _).
    - injection E as <-. apply mixed_work; [exact K|constructor].
    - destruct (_ && _ && _); [|discriminate E]. pose proof (element_work ind size kids K) as L. destruct (flat_map (element_line ind size) kids); [discriminate E|]. injection E as <-. exact L. }
  clearbody sm. destruct sm as [ls|]; [apply wrap_lines_work, S2; reflexivity|]. apply wrap_parts_work, compact_work, K.
Qed.
Lemma sers_each l p : sers l p <> None -> forall c, In c l -> ser c p <> None.
Proof.
  induction l as [|n l IH]; intros H c I; [destruct I|]. cbn [sers] in H. destruct (ser n p) as [a|] eqn:E; [|cbn in H; congruence]. destruct (sers l p) as [b|] eqn:E2; [|cbn in H; congruence].
  destruct I as [<-|I]; [congruence|]. apply IH; [discriminate|exact I].
Qed.
Lemma pretty_works size n : forall p, ser n p <> None -> works (n, pretty size n p).
Proof.
  induction n as [d|d|d|d|cs IH|name ns attrs cs tc IH IHt] using node_ind'; intros p Hs ind pre; cbn [snd pretty].
  - destruct pre; [discriminate|]. destruct (strip d); discriminate.
  - discriminate.
  - discriminate.
  - discriminate.
  - rewrite ser_document in Hs. assert (E : eval_all (map (fun c => (c, pretty size c None)) cs) ind false <> None); [|destruct (eval_all _ ind false); [discriminate|congruence]].
    apply eval_all_work. apply Forall_forall. intros k Ik. apply in_map_iff in Ik as (c & <- & Ic). rewrite Forall_forall in IH. apply (IH c Ic). exact (sers_each cs None Hs c Ic).
  - rewrite ser_elem in Hs. destruct (serialize_start_tag default_opts ns name attrs) as [op|]; [|congruence]. destruct (in_strs name void_elements); [discriminate|].
    apply content_works. unfold serialized_children in Hs.
    assert (K : forall l q, Forall (fun n => forall p, ser n p <> None -> works (n, pretty size n p)) l -> sers l q <> None -> Forall works (map (fun c => (c, pretty size c q)) l)).
    { intros l q F H. apply Forall_forall. intros k Ik. apply in_map_iff in Ik as (c & <- & Ic). rewrite Forall_forall in F. apply (F c Ic). exact (sers_each l q H c Ic). }
    destruct (_ && _); [destruct tc as [l|]|]; cbn [fst snd] in Hs; (apply K; [try exact IH; try (apply IHt; reflexivity)|intros E; rewrite E in Hs; congruence]).
Qed.
Lemma top_works size n frag p ind : ser n p <> None -> to_html_pretty frag n p ind size <> None.
Proof.
  intros H. pose proof (pretty_works size n p H ind false) as W. cbn [snd] in W. destruct n as [d|d|d|d|cs|name ns attrs cs tc]; try exact W. unfold to_html_pretty. destruct frag; [|exact W].
  cbn [pretty] in W. destruct (eval_all _ ind false); [discriminate|exact W].
Qed.
