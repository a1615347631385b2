(* Proofs: what the selector parser guarantees. *)
From Verif Require Import Str StrFacts SerializerModel SanModel SanFacts SanTreeProofs SanIdemProofs DomModel SelModel SelSpec SelNodeProofs SelSibProofs SelQueryProofs.
From Coq Require Import Lia.
Open Scope nat_scope.

(* token lists as tokenize makes them *)
Inductive toks_ok : list tok -> Prop :=
| to_nil : toks_ok []
| to_tag : forall n l, lower n = n -> toks_ok l -> toks_ok (TTag n :: l)
| to_univ : forall l, toks_ok l -> toks_ok (TUniv :: l)
| to_id : forall n l, n <> [] -> toks_ok l -> toks_ok (TId n :: l)
| to_class : forall n l, toks_ok l -> toks_ok (TClass n :: l)
| to_comma : forall l, toks_ok l -> toks_ok (TComma :: l)
| to_comb : forall c l, toks_ok l -> toks_ok (TComb c :: l)
| to_attr1 : forall n l, toks_ok l -> toks_ok (TAttrStart :: TTag n :: TAttrEnd :: l)
| to_attr2 : forall n o v l, toks_ok l -> toks_ok (TAttrStart :: TTag n :: TAttrOp o :: TString v :: TAttrEnd :: l)
| to_ps1 : forall n l, toks_ok l -> toks_ok (TColon :: TTag n :: l)
| to_ps2 : forall n l, toks_ok l -> toks_ok (TColon :: TTag n :: TOpen :: TClose :: l)
| to_ps3 : forall n a l, toks_ok l -> toks_ok (TColon :: TTag n :: TOpen :: TString a :: TClose :: l).

Lemma tok_one_ok c t ts r l : tok_one c t = Some (ts, r) -> toks_ok l -> toks_ok (ts ++ l).
Proof.
  intros E H. unfold tok_one in E.
  destruct (c =? 42)%N; [injection E as <- <-; constructor; exact H|].
  destruct (c =? 35)%N; [unfold read_name in E; destruct (take_while name_char t) as [|a n] eqn:Q; [discriminate E|]; injection E as <- <-; constructor; [discriminate|exact H]|].
  destruct (c =? 46)%N; [unfold read_name in E; destruct (take_while name_char t) as [|a n] eqn:Q; [discriminate E|]; injection E as <- <-; constructor; exact H|].
  destruct (c =? 91)%N.
  { unfold tok_attr in E. destruct (read_name (skip_ws t)) as [name s0]. destruct name as [|a name]; [discriminate E|]. destruct (skip_ws s0) as [|d t1]; [discriminate E|].
    destruct (d =? 93)%N; [injection E as <- <-; apply to_attr1; exact H|]. destruct (read_op (d :: t1)) as [[o s1]|]; [|discriminate E].
    match type of E with match ?m with Some _ => _ | None => _ end = _ => destruct m as [[v s2]|]; [|discriminate E] end.
    destruct (skip_ws s2) as [|d2 t2]; [discriminate E|]. destruct (d2 =? 93)%N; [|discriminate E]. injection E as <- <-. apply to_attr2. exact H. }
  destruct (c =? 44)%N; [injection E as <- <-; constructor; exact H|].
  destruct (c =? 58)%N.
  { unfold tok_pseudo in E. destruct (read_name t) as [name s0]. destruct name as [|a name]; [discriminate E|]. destruct s0 as [|d t1]; [injection E as <- <-; apply to_ps1; exact H|].
    destruct (d =? 40)%N; [|injection E as <- <-; apply to_ps1; exact H]. destruct (read_arg 1 (skip_ws t1)) as [arg r0]. destruct r0 as [|e r0]; [discriminate E|].
    destruct (strip arg) as [|b w]; injection E as <- <-; cbn [app]; [apply to_ps2|apply to_ps3]; exact H. }
  destruct (name_start c); [|discriminate E]. destruct (read_name (c :: t)) as [n r0]. injection E as <- <-. constructor; [apply lower_idem|exact H].
Qed.
Lemma tokenize_ok fuel : forall p a s l, tokenize fuel p a s = Some l -> toks_ok l.
Proof.
  induction fuel as [|k IH]; intros p a s l E; cbn [tokenize] in E; [discriminate E|]. destruct s as [|c t]; [injection E as <-; constructor|].
  destruct (is_html_space c); [eapply IH; exact E|]. destruct (comb_of c) as [cb|].
  - destruct (tokenize k false true (skip_ws t)) as [l'|] eqn:Q; [|discriminate E]. injection E as <-. constructor. eapply IH; exact Q.
  - destruct (tok_one c t) as [[ts r]|] eqn:T; [|discriminate E]. destruct (tokenize k false true r) as [l'|] eqn:Q; [|discriminate E]. injection E as <-.
    apply IH in Q. pose proof (tok_one_ok _ _ _ _ _ T Q) as H. destruct (p && a && negb (c =? 44)%N); [constructor|]; exact H.
Qed.

(* ---- the parser ---- *)
Definition nums (s : selector) : list nat := map cid (parts s).
Definition within (lo hi : nat) (l : list nat) : Prop := NoDup l /\ forall i, In i l -> lo <= i < hi.
Definition tidy_complex (c : complex) : Prop := well_formed c = true /\ forall p, In p c -> forallb tidy_simple (simples (snd p)) = true.
Definition sel_ok (lo hi : nat) (s : selector) : Prop := lo <= hi /\ within lo hi (nums s) /\ forall c, In c s -> tidy_complex c.
Lemma sel_ok_parsed lo hi s : sel_ok lo hi s -> parsed_ok s.
Proof. intros [_ [[H1 _] H2]]. split; [exact H1|]. intros c Hc. exact (H2 c Hc). Qed.

Section P.
Variable lim : limits.
Variable parse_arg : str -> nat -> (selector * nat) + serr.
Hypothesis arg_tidy : forall a n s n', parse_arg a n = inl (s, n') -> sel_ok n n' s.

Lemma not_tidy a lo hi s : sel_ok lo hi s -> tidy_simple (SNot a (Some s)) = true.
Proof.
  intros [_ [_ H]]. cbn [tidy_simple]. apply forallb_forall. intros c Hc. apply forallb_forall. intros p Hp. destruct (H c Hc) as [_ T]. specialize (T p Hp). destruct (snd p). exact T.
Qed.
Lemma mk_pseudo_ok n arg next s next' : mk_pseudo parse_arg n arg next = inl (s, next') -> tidy_simple s = true /\ next <= next'.
Proof.
  unfold mk_pseudo. destruct (str_eqb n (u "not")); [|intros E; injection E as <- <-; split; [reflexivity|lia]].
  destruct arg as [[|c a]|]; try (intros E; injection E as <- <-; split; [reflexivity|lia]).
  destruct (parse_arg (c :: a) next) as [[s0 n0]|e] eqn:Q; [|intros E; discriminate E]. intros E. injection E as <- <-. apply arg_tidy in Q. split; [eapply not_tidy; exact Q|exact (proj1 Q)].
Qed.
Lemma parse_simple_ok ts next s r next' : toks_ok ts -> parse_simple parse_arg ts next = Some (inl (s, r, next')) -> tidy_simple s = true /\ toks_ok r /\ next <= next' /\ List.length r < List.length ts.
Proof.
  intros T E. inversion T; subst ts; cbn [parse_simple parse_attr parse_pseudo] in E; try discriminate E.
  - injection E as <- <- <-. split; [cbn [tidy_simple]; apply str_eqb_iff; exact H|]. split; [assumption|]. cbn [List.length]. lia.
  - injection E as <- <- <-. split; [reflexivity|]. split; [assumption|]. cbn [List.length]. lia.
  - injection E as <- <- <-. split; [destruct n; [contradiction|reflexivity]|]. split; [assumption|]. cbn [List.length]. lia.
  - injection E as <- <- <-. split; [reflexivity|]. split; [assumption|]. cbn [List.length]. lia.
  - injection E as <- <- <-. split; [reflexivity|]. split; [assumption|]. cbn [List.length]. lia.
  - injection E as <- <- <-. split; [reflexivity|]. split; [assumption|]. cbn [List.length]. lia.
  - assert (E' : match mk_pseudo parse_arg (lower n) None next with inl (s0, next0) => inl (s0, l, next0) | inr e => inr e end = inl (s, r, next') :> (simple * list tok * nat) + serr).
    { destruct l as [|t l]; [congruence|]. destruct t; try congruence. inversion H. }
    destruct (mk_pseudo parse_arg (lower n) None next) as [[s0 n0]|e] eqn:Q; [|discriminate E']. apply mk_pseudo_ok in Q. injection E' as <- <- <-. split; [apply Q|]. split; [assumption|]. cbn [List.length]. split; [apply Q|lia].
  - destruct (mk_pseudo parse_arg (lower n) None next) as [[s0 n0]|e] eqn:Q; [|discriminate E]. apply mk_pseudo_ok in Q. injection E as <- <- <-. split; [apply Q|]. split; [assumption|]. cbn [List.length]. split; [apply Q|lia].
  - destruct (mk_pseudo parse_arg (lower n) (Some a) next) as [[s0 n0]|e] eqn:Q; [|discriminate E]. apply mk_pseudo_ok in Q. injection E as <- <- <-. split; [apply Q|]. split; [assumption|]. cbn [List.length]. split; [apply Q|lia].
Qed.
Lemma forallb_snoc {A} (f : A -> bool) l x : forallb f l = true -> f x = true -> forallb f (l ++ [x]) = true.
Proof. intros H1 H2. rewrite forallb_app, H1. cbn [forallb]. rewrite H2. reflexivity. Qed.
Lemma parse_compound_ok fuel : forall acc ts next ss r next', toks_ok ts -> forallb tidy_simple acc = true -> parse_compound lim parse_arg fuel acc ts next = POk ss r next' ->
  forallb tidy_simple ss = true /\ toks_ok r /\ next <= next' /\ List.length r <= List.length ts.
Proof.
  induction fuel as [|k IH]; intros acc ts next ss r next' T A E; cbn [parse_compound] in E; [discriminate E|].
  destruct (parse_simple parse_arg ts next) as [[[[s r0] n0]|e]|] eqn:Q; [|discriminate E|].
  - apply (parse_simple_ok _ _ _ _ _ T) in Q. destruct Q as [Q1 [Q2 [Q3 Q4]]].
    destruct (existsb (sig_eqb s) acc); [destruct (IH _ _ _ _ _ _ Q2 A E) as [H1 [H2 [H3 H4]]]; split; [exact H1|]; split; [exact H2|lia]|].
    destruct (max_simples lim <=? List.length acc); [discriminate E|].
    destruct (IH _ _ _ _ _ _ Q2 (forallb_snoc _ _ _ A Q1) E) as [H1 [H2 [H3 H4]]]. split; [exact H1|]. split; [exact H2|lia].
  - injection E as <- <- <-. split; [exact A|]. split; [exact T|lia].
Qed.
Definition complex_nums (c : complex) : list nat := map (fun p => cid (snd p)) c.
Lemma within_snoc lo hi l i hi' : within lo hi l -> hi <= i < hi' -> lo <= hi -> within lo hi' (l ++ [i]).
Proof.
  intros [H1 H2] L0 L1. split.
  - apply NoDup_rev in H1. rewrite <- (rev_involutive (l ++ [i])). apply NoDup_rev. rewrite rev_app_distr. cbn [rev app]. apply NoDup_cons_iff. split; [|exact H1]. intros Q. apply in_rev in Q. apply H2 in Q. lia.
  - intros j Hj. apply in_app_or in Hj. destruct Hj as [Hj | [<- | []]]; [apply H2 in Hj; lia|lia].
Qed.
Lemma wf_snoc c k x : well_formed c = true -> well_formed (c ++ [(Some k, x)]) = true.
Proof. destruct c as [|[[|] y] t]; try (intros H; discriminate H). cbn [app well_formed]. intros H. apply forallb_snoc; [exact H|reflexivity]. Qed.
Lemma parse_parts_ok fuel : forall acc ts next c r next' lo, toks_ok ts -> tidy_complex acc -> lo <= next -> within lo next (complex_nums acc) ->
  parse_parts lim parse_arg fuel acc ts next = POk c r next' -> tidy_complex c /\ within lo next' (complex_nums c) /\ toks_ok r /\ next <= next' /\ List.length r <= List.length ts.
Proof.
  induction fuel as [|k IH]; intros acc ts next c r next' lo T A L W E; cbn [parse_parts] in E; [discriminate E|].
  destruct ts as [|t ts]; [injection E as <- <- <-; split; [exact A|]; split; [exact W|]; split; [exact T|lia]|].
  destruct t; try (injection E as <- <- <-; split; [exact A|]; split; [exact W|]; split; [exact T|lia]).
  inversion T; subst. destruct (parse_compound lim parse_arg (S k) [] ts next) as [ss r0 n0|e] eqn:Q; [|discriminate E].
  apply (parse_compound_ok _ [] _ _ _ _ _ H0 eq_refl) in Q. destruct Q as [Q1 [Q2 [Q3 Q4]]]. destruct ss as [|s0 ss]; [discriminate E|].
  destruct (max_parts lim <=? List.length acc); [discriminate E|].
  apply (IH _ _ _ _ _ _ lo Q2) in E; [destruct E as [H1 [H2 [H3 [H4 H5]]]]; split; [exact H1|]; split; [exact H2|]; split; [exact H3|]; cbn [List.length]; lia| | |].
  - destruct A as [A1 A2]. split; [apply wf_snoc; exact A1|]. intros p Hp. apply in_app_or in Hp. destruct Hp as [Hp | [<- | []]]; [auto|exact Q1].
  - lia.
  - unfold complex_nums. rewrite map_app. cbn [map snd cid]. apply (within_snoc lo next); [exact W|lia|exact L].
Qed.
Lemma parse_complex_ok fuel ts next c r next' : toks_ok ts -> parse_complex lim parse_arg fuel ts next = POk c r next' ->
  (c = [] \/ tidy_complex c) /\ within next next' (complex_nums c) /\ toks_ok r /\ next <= next' /\ List.length r <= List.length ts.
Proof.
  intros T E. unfold parse_complex in E. destruct (parse_compound lim parse_arg fuel [] ts next) as [ss r0 n0|e] eqn:Q; [|discriminate E].
  apply (parse_compound_ok _ [] _ _ _ _ _ T eq_refl) in Q. destruct Q as [Q1 [Q2 [Q3 Q4]]]. destruct ss as [|s0 ss].
  - injection E as <- <- <-. split; [left; reflexivity|]. split; [split; [constructor|intros i []]|]. split; [exact Q2|lia].
  - apply (parse_parts_ok _ _ _ _ _ _ _ next Q2) in E; [destruct E as [H1 [H2 [H3 [H4 H5]]]]; split; [right; exact H1|]; split; [exact H2|]; split; [exact H3|lia]| | |].
    + split; [reflexivity|]. intros p [<- | []]. exact Q1.
    + lia.
    + split; [constructor; [intros []|constructor]|]. intros i [<- | []]. cbn [snd cid]. lia.
Qed.
Lemma nums_snoc l c : nums (l ++ [c]) = (nums l ++ complex_nums c)%list.
Proof. unfold nums, parts, complex_nums. rewrite map_app, concat_app, map_app. cbn [map List.concat]. rewrite app_nil_r, map_map. reflexivity. Qed.
Lemma within_app lo mid hi a b : lo <= mid -> mid <= hi -> within lo mid a -> within mid hi b -> within lo hi (a ++ b).
Proof.
  intros L1 L2 [A1 A2] [B1 B2]. split.
  - induction a as [|x a IH]; [exact B1|]. cbn [app]. apply NoDup_cons_iff in A1. destruct A1 as [A0 A1]. apply NoDup_cons_iff. split.
    + intros Q. apply in_app_or in Q. destruct Q as [Q | Q]; [contradiction|]. apply B2 in Q. specialize (A2 x (or_introl eq_refl)). lia.
    + apply IH; [exact A1|intros i Hi; apply A2; right; exact Hi].
  - intros i Hi. apply in_app_or in Hi. destruct Hi as [Hi | Hi]; [apply A2 in Hi|apply B2 in Hi]; lia.
Qed.
Lemma within_mono lo hi hi' l : hi <= hi' -> within lo hi l -> within lo hi' l.
Proof. intros L [A B]. split; [exact A|]. intros i Hi. apply B in Hi. lia. Qed.
Lemma parse_list_ok fuel : forall acc ts next s r next' lo, toks_ok ts -> sel_ok lo next acc -> parse_list lim parse_arg fuel acc ts next = POk s r next' -> sel_ok lo next' s.
Proof.
  induction fuel as [|k IH]; intros acc ts next s r next' lo T A E; cbn [parse_list] in E; [discriminate E|].
  destruct ts as [|t ts]; [injection E as <- <- <-; exact A|]. destruct t; try (injection E as <- <- <-; exact A).
  inversion T; subst. destruct (parse_complex lim parse_arg (S k) ts next) as [c r0 n0|e] eqn:Q; [|discriminate E].
  apply (parse_complex_ok _ _ _ _ _ _ H0) in Q. destruct Q as [Q1 [Q2 [Q3 [Q4 _]]]]. destruct A as [A1 [A2 A3]].
  assert (A' : sel_ok lo n0 acc) by (split; [lia|]; split; [exact (within_mono _ _ _ _ Q4 A2)|exact A3]).
  destruct c as [|p c]; [exact (IH _ _ _ _ _ _ lo Q3 A' E)|]. destruct Q1 as [Q1 | Q1]; [discriminate Q1|].
  destruct (existsb (csig_eqb (p :: c)) acc); [exact (IH _ _ _ _ _ _ lo Q3 A' E)|]. destruct (max_list_items lim <=? List.length acc); [discriminate E|].
  apply (IH _ _ _ _ _ _ lo Q3) in E; [exact E|]. split; [lia|]. split; [rewrite nums_snoc; apply (within_app lo next n0); [exact A1|exact Q4|exact A2|exact Q2]|].
  intros d Hd. apply in_app_or in Hd. destruct Hd as [Hd | [<- | []]]; [auto|exact Q1].
Qed.
Lemma parse_tokens_ok ts next s next' : toks_ok ts -> parse_tokens lim parse_arg ts next = inl (s, next') -> sel_ok next next' s.
Proof.
  intros T E. unfold parse_tokens in E. destruct (parse_complex lim parse_arg (S (List.length ts)) ts next) as [c r n|e] eqn:Q; [|discriminate E].
  apply (parse_complex_ok _ _ _ _ _ _ T) in Q. destruct Q as [Q1 [Q2 [Q3 [Q4 _]]]]. destruct c as [|p c]; [discriminate E|]. destruct Q1 as [Q1 | Q1]; [discriminate Q1|].
  match type of E with match ?m with _ => _ end = _ => destruct m as [l r1 n1|e] eqn:P; [|discriminate E] end. destruct r1 as [|t0 r1]; [|discriminate E]. injection E as <- <-.
  eapply parse_list_ok; [exact Q3| |exact P]. split; [exact Q4|]. split.
  - unfold nums, parts. cbn [map List.concat]. rewrite app_nil_r. cbn [map] in *. rewrite map_map. exact Q2.
  - intros d [<- | []]. exact Q1.
Qed.
End P.
Lemma parse_at_ok lim room : forall t next s next', parse_at lim room t next = inl (s, next') -> sel_ok next next' s.
Proof.
  induction room as [|r IH]; intros t next s next' E; cbn [parse_at] in E; [discriminate E|]. destruct (tokens_of t) as [ts|] eqn:T; [|discriminate E].
  eapply parse_tokens_ok; [exact IH| |exact E]. exact (tokenize_ok _ _ _ _ _ T).
Qed.
Lemma parse_selector_ok lim t s : parse_selector lim t = inl s -> parsed_ok s.
Proof.
  unfold parse_selector. destruct (strip t) as [|c r]; [intros E; discriminate E|]. destruct (max_length lim <? N.of_nat (List.length (c :: r)))%N; [intros E; discriminate E|].
  destruct (parse_at lim (S (max_parse_depth lim)) (c :: r) 0) as [[sel n]|e] eqn:Q; [|intros E; discriminate E]. intros E. injection E as <-. eapply sel_ok_parsed. eapply parse_at_ok; exact Q.
Qed.

(* ---- the fuel is enough ---- *)
Section Fuel.
Variable lim : limits.
Variable parse_arg : str -> nat -> (selector * nat) + serr.
Hypothesis arg_tidy : forall a n s n', parse_arg a n = inl (s, n') -> sel_ok n n' s.
Hypothesis arg_fuel : forall a n, parse_arg a n <> inr EFuel.
Lemma mk_pseudo_fuel n arg next : mk_pseudo parse_arg n arg next <> inr EFuel.
Proof.
  unfold mk_pseudo. destruct (str_eqb n (u "not")); [|discriminate]. destruct arg as [[|c a]|]; try discriminate.
  destruct (parse_arg (c :: a) next) as [[s0 n0]|e] eqn:Q; [discriminate|]. intros H. injection H as ->. exact (arg_fuel _ _ Q).
Qed.
Lemma parse_simple_fuel ts next : parse_simple parse_arg ts next <> Some (inr EFuel).
Proof.
  destruct ts as [|t ts]; [discriminate|]. destruct t; cbn [parse_simple]; try discriminate.
  - destruct (parse_attr (TAttrStart :: ts)) as [[s r]|]; discriminate.
  - intros H. injection H as H. unfold parse_pseudo in H. destruct ts as [|t ts]; [discriminate H|]. destruct t; try discriminate H.
    assert (Z : forall a (r : list tok), match mk_pseudo parse_arg (lower n) a next with inl (s, next0) => inl (s, r, next0) | inr e => inr e end <> inr EFuel :> (simple * list tok * nat) + serr).
    { intros a r Q. destruct (mk_pseudo parse_arg (lower n) a next) as [[s0 n0]|e] eqn:W; [discriminate Q|]. injection Q as ->. exact (mk_pseudo_fuel _ _ _ W). }
    destruct ts as [|t ts]; [exact (Z _ _ H)|]. destruct t; try exact (Z _ _ H).
    destruct ts as [|t ts]; [discriminate H|]. destruct t; try discriminate H; [|exact (Z _ _ H)].
    destruct ts as [|t ts]; [discriminate H|]. destruct t; try discriminate H. exact (Z _ _ H).
Qed.
Lemma parse_compound_fuel fuel : forall acc ts next, toks_ok ts -> List.length ts < fuel -> parse_compound lim parse_arg fuel acc ts next <> PErr EFuel.
Proof.
  induction fuel as [|k IH]; intros acc ts next T L; [lia|]. cbn [parse_compound]. destruct (parse_simple parse_arg ts next) as [[[[s r0] n0]|e]|] eqn:Q; [| |discriminate].
  - apply (parse_simple_ok _ arg_tidy _ _ _ _ _ T) in Q. destruct Q as [Q1 [Q2 [Q3 Q4]]].
    destruct (existsb (sig_eqb s) acc); [apply IH; [exact Q2|lia]|]. destruct (max_simples lim <=? List.length acc); [discriminate|apply IH; [exact Q2|lia]].
  - intros H. injection H as ->. exact (parse_simple_fuel _ _ Q).
Qed.
Lemma parse_parts_fuel fuel : forall acc ts next, toks_ok ts -> List.length ts < fuel -> parse_parts lim parse_arg fuel acc ts next <> PErr EFuel.
Proof.
  induction fuel as [|k IH]; intros acc ts next T L; [lia|]. cbn [parse_parts]. destruct ts as [|t ts]; [discriminate|]. destruct t; try discriminate.
  inversion T; subst. cbn [List.length] in L. destruct (parse_compound lim parse_arg (S k) [] ts next) as [ss r0 n0|e] eqn:Q.
  - apply (parse_compound_ok _ _ arg_tidy _ [] _ _ _ _ _ H0 eq_refl) in Q. destruct Q as [_ [Q2 [_ Q4]]]. destruct ss; [discriminate|]. destruct (max_parts lim <=? List.length acc); [discriminate|].
    apply IH; [exact Q2|lia].
  - intros H. injection H as ->. eapply parse_compound_fuel; [exact H0| |exact Q]; lia.
Qed.
Lemma parse_complex_fuel fuel ts next : toks_ok ts -> List.length ts < fuel -> parse_complex lim parse_arg fuel ts next <> PErr EFuel.
Proof.
  intros T L. unfold parse_complex. destruct (parse_compound lim parse_arg fuel [] ts next) as [ss r0 n0|e] eqn:Q.
  - apply (parse_compound_ok _ _ arg_tidy _ [] _ _ _ _ _ T eq_refl) in Q. destruct Q as [_ [Q2 [_ Q4]]]. destruct ss; [discriminate|]. apply parse_parts_fuel; [exact Q2|lia].
  - intros H. injection H as ->. exact (parse_compound_fuel _ _ _ _ T L Q).
Qed.
Lemma parse_list_fuel fuel : forall acc ts next, toks_ok ts -> List.length ts < fuel -> parse_list lim parse_arg fuel acc ts next <> PErr EFuel.
Proof.
  induction fuel as [|k IH]; intros acc ts next T L; [lia|]. cbn [parse_list]. destruct ts as [|t ts]; [discriminate|]. destruct t; try discriminate.
  inversion T; subst. cbn [List.length] in L. destruct (parse_complex lim parse_arg (S k) ts next) as [c r0 n0|e] eqn:Q.
  - apply (parse_complex_ok _ _ arg_tidy _ _ _ _ _ _ H0) in Q. destruct Q as [_ [_ [Q3 [_ Q5]]]]. destruct c; [apply IH; [exact Q3|lia]|]. destruct (existsb _ acc); [apply IH; [exact Q3|lia]|].
    destruct (max_list_items lim <=? List.length acc); [discriminate|]. apply IH; [exact Q3|lia].
  - intros H. injection H as ->. eapply parse_complex_fuel; [exact H0| |exact Q]; lia.
Qed.
Lemma parse_tokens_fuel ts next : toks_ok ts -> parse_tokens lim parse_arg ts next <> inr EFuel.
Proof.
  intros T. unfold parse_tokens. destruct (parse_complex lim parse_arg (S (List.length ts)) ts next) as [c r n|e] eqn:Q.
  - apply (parse_complex_ok _ _ arg_tidy _ _ _ _ _ _ T) in Q. destruct Q as [_ [_ [Q3 [_ Q5]]]]. destruct c as [|p c]; [discriminate|].
    pose proof (parse_list_fuel (S (List.length ts)) [p :: c] r n Q3 ltac:(lia)) as Z.
    match goal with |- match ?m with _ => _ end <> _ => destruct m as [l r1 n1|e] eqn:P end; [destruct r1; discriminate|]. intros H. injection H as ->. exact (Z P).
  - intros H. injection H as ->. eapply parse_complex_fuel; [exact T| |exact Q]; lia.
Qed.
End Fuel.
Lemma parse_at_fuel lim room : forall t next, parse_at lim room t next <> inr EFuel.
Proof.
  induction room as [|r IH]; intros t next; cbn [parse_at]; [discriminate|]. destruct (tokens_of t) as [ts|] eqn:T; [|discriminate].
  apply parse_tokens_fuel; [apply parse_at_ok|exact IH|exact (tokenize_ok _ _ _ _ _ T)].
Qed.
Lemma parse_selector_fuel lim t : parse_selector lim t <> inr EFuel.
Proof.
  unfold parse_selector. destruct (strip t) as [|c r]; [discriminate|]. destruct (max_length lim <? N.of_nat (List.length (c :: r)))%N; [discriminate|].
  destruct (parse_at lim (S (max_parse_depth lim)) (c :: r) 0) as [[sel n]|e] eqn:Q; [discriminate|]. intros H. injection H as ->. exact (parse_at_fuel _ _ _ _ Q).
Qed.

(* ---- the tokenizer's fuel is enough ---- *)
Lemma drop_len f (s : str) : List.length (drop_while f s) <= List.length s.
Proof. induction s as [|c s IH]; cbn [drop_while]; [lia|]. destruct (f c); cbn [List.length]; lia. Qed.
Lemma read_string_len q : forall s v r, read_string q s = Some (v, r) -> List.length r <= List.length s.
Proof.
  intros s. assert (Z : forall n s, List.length s <= n -> forall v r, read_string q s = Some (v, r) -> List.length r <= List.length s).
  { induction n as [|n IH]; intros s0 L v r E; (destruct s0 as [|c t]; [discriminate E|]); cbn [List.length] in *; [lia|]. cbn [read_string] in E.
    destruct (c =? q)%N; [injection E as <- <-; lia|]. destruct (c =? 92)%N.
    - destruct t as [|d t']; [discriminate E|]. cbn [List.length] in *. destruct (read_string q t') as [[v0 r0]|] eqn:Q; [|discriminate E]. cbn [option_map fst snd] in E. injection E as <- <-. apply IH in Q; lia.
    - destruct (read_string q t) as [[v0 r0]|] eqn:Q; [|discriminate E]. cbn [option_map fst snd] in E. injection E as <- <-. apply IH in Q; lia. }
  exact (Z _ s (le_n _)).
Qed.
Lemma read_arg_len : forall s d a r, read_arg d s = (a, r) -> List.length r <= List.length s.
Proof.
  induction s as [|c t IH]; intros d a r E; cbn [read_arg] in E; [injection E as <- <-; lia|]. cbn [List.length].
  destruct (c =? 40)%N; [destruct (read_arg (S d) t) as [a0 r0] eqn:Q; injection E as <- <-; apply IH in Q; lia|].
  destruct (c =? 41)%N.
  - destruct d as [|[|d]]; [injection E as <- <-; cbn [List.length]; lia..|]. destruct (read_arg (S d) t) as [a0 r0] eqn:Q. injection E as <- <-. apply IH in Q. lia.
  - destruct (read_arg d t) as [a0 r0] eqn:Q. injection E as <- <-. apply IH in Q. lia.
Qed.
Lemma read_op_len s o r : read_op s = Some (o, r) -> List.length r <= List.length s.
Proof.
  destruct s as [|c t]; [intros H; discriminate H|]. cbn [read_op]. destruct (c =? 61)%N; [intros H; injection H as <- <-; cbn [List.length]; lia|].
  destruct (if (c =? 126)%N then Some OpWord else _) as [k|]; [|intros H; discriminate H]. destruct t as [|d t]; [intros H; discriminate H|]. destruct (d =? 61)%N; [|intros H; discriminate H].
  intros H. injection H as <- <-. cbn [List.length]. lia.
Qed.
Lemma tok_one_len c t ts r : tok_one c t = Some (ts, r) -> List.length r <= List.length t.
Proof.
  intros E. unfold tok_one in E. assert (SK : forall s, List.length (skip_ws s) <= List.length s) by (intros; apply drop_len).
  destruct (c =? 42)%N; [injection E as <- <-; lia|].
  destruct (c =? 35)%N; [unfold read_name in E; destruct (take_while name_char t) as [|a n]; [discriminate E|]; injection E as <- <-; apply drop_len|].
  destruct (c =? 46)%N; [unfold read_name in E; destruct (take_while name_char t) as [|a n]; [discriminate E|]; injection E as <- <-; apply drop_len|].
  destruct (c =? 91)%N.
  { unfold tok_attr in E. unfold read_name in E. pose proof (drop_len name_char (skip_ws t)) as L1. pose proof (SK t) as L0. destruct (take_while name_char (skip_ws t)) as [|a name]; [discriminate E|].
    pose proof (SK (drop_while name_char (skip_ws t))) as L2. destruct (skip_ws (drop_while name_char (skip_ws t))) as [|d t1]; [discriminate E|]. cbn [List.length] in L2.
    destruct (d =? 93)%N; [injection E as <- <-; lia|]. destruct (read_op (d :: t1)) as [[o s1]|] eqn:RO; [|discriminate E]. apply read_op_len in RO. cbn [List.length] in RO.
    pose proof (SK s1) as L3.
    assert (L4 : forall v s2, match skip_ws s1 with q :: t0 => if ((q =? 34) || (q =? 39))%N then read_string q t0 else Some (read_unquoted (skip_ws s1)) | [] => Some ([], []) end = Some (v, s2) -> List.length s2 <= List.length s1).
    { intros v s2 Q. destruct (skip_ws s1) as [|q t0] eqn:Es; [injection Q as <- <-; cbn [List.length]; lia|]. cbn [List.length] in L3.
      destruct ((q =? 34) || (q =? 39))%N; [apply read_string_len in Q; lia|]. unfold read_unquoted in Q. assert (s2 = drop_while unq_char (q :: t0)) as -> by congruence. pose proof (drop_len unq_char (q :: t0)). cbn [List.length] in H. lia. }
    match type of E with match ?m with Some _ => _ | None => _ end = _ => destruct m as [[v s2]|] eqn:Q; [|discriminate E] end. specialize (L4 _ _ eq_refl).
    pose proof (SK s2) as L5. destruct (skip_ws s2) as [|d2 t2]; [discriminate E|]. destruct (d2 =? 93)%N; [|discriminate E]. injection E as <- <-. cbn [List.length] in *. lia. }
  destruct (c =? 44)%N; [injection E as <- <-; apply SK|].
  destruct (c =? 58)%N.
  { unfold tok_pseudo, read_name in E. pose proof (drop_len name_char t) as L1. destruct (take_while name_char t) as [|a name]; [discriminate E|]. destruct (drop_while name_char t) as [|d t1]; [injection E as <- <-; cbn [List.length]; lia|].
    cbn [List.length] in L1. destruct (d =? 40)%N; [|injection E as <- <-; cbn [List.length]; lia]. destruct (read_arg 1 (skip_ws t1)) as [arg r0] eqn:RA. apply read_arg_len in RA. pose proof (SK t1). destruct r0 as [|e r0]; [discriminate E|].
    injection E as <- <-. cbn [List.length] in *. lia. }
  destruct (name_start c) eqn:NS; [|discriminate E]. unfold read_name in E. injection E as <- <-. cbn [drop_while]. unfold name_char at 1. rewrite NS. cbn [orb]. apply drop_len.
Qed.
Lemma tokenize_fuel f : forall f' p a s, List.length s < f -> List.length s < f' -> tokenize f p a s = tokenize f' p a s.
Proof.
  induction f as [|k IH]; intros f' p a s L L'; [lia|]. destruct f' as [|k']; [lia|]. cbn [tokenize]. destruct s as [|c t]; [reflexivity|]. cbn [List.length] in *.
  destruct (is_html_space c) eqn:Ec.
  - assert (List.length (skip_ws (c :: t)) <= List.length t) by (unfold skip_ws; cbn [drop_while]; rewrite Ec; apply drop_len). apply IH; lia.
  - destruct (comb_of c) as [cb|].
    + assert (List.length (skip_ws t) <= List.length t) by apply drop_len. rewrite (IH k' false true (skip_ws t)) by lia. reflexivity.
    + destruct (tok_one c t) as [[ts r]|] eqn:T; [|reflexivity]. apply tok_one_len in T. rewrite (IH k' false true r) by lia. reflexivity.
Qed.
