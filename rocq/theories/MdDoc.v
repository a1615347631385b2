(* C45, C46: whole documents *)
From Coq Require Import Lia ZifyBool ZifyN ZifyNat.
From Verif Require Import Str StrFacts SerializerModel SerTreeProofs MdModel MdSpec MdProofs MdPre MdText MdTextFinal MdGrammar.
Open Scope list_scope. Open Scope N_scope.

(* ---------- the builder ---------- *)
Definition shape (l : list str) (nc : nat) : Prop := (match l with x :: _ => x <> [] | [] => True end) /\ (nc <> 0%nat -> exists h t, l = (h ++ [10]) :: t).
Definition Inv (inl : bool) (b : builder) : Prop := markup (content b) /\ shape (buf b) (newline_count b) /\ (inl = true -> ~ In 10 (content b)).
Lemma content_cons x l q f n p : content (Builder q (x :: l) f n p) = List.concat (rev l) ++ x.
Proof. unfold content. cbn [buf rev]. rewrite concat_app. cbn [List.concat]. rewrite app_nil_r. reflexivity. Qed.
Lemma last_tick b : shape (buf b) (newline_count b) -> ends [96] (content b) = last_backtick (buf b).
Proof.
  intros [H _]. unfold content, last_backtick. destruct (buf b) as [|x l]; [reflexivity|]. cbn [rev]. rewrite concat_app. cbn [List.concat]. rewrite app_nil_r. destruct (snoc_of x H) as (h & y & ->). rewrite app_assoc, ends_one, rev_app_distr. cbn [rev app]. apply N.eqb_sym.
Qed.
Lemma inv_new inl q : Inv inl (new_builder q).
Proof. split; [constructor|]. split; [|intros _ []]. split; [exact Logic.I|]. intros H. destruct (H eq_refl). Qed.
Lemma inv_same inl b b' : buf b' = buf b -> newline_count b' = newline_count b -> Inv inl b -> Inv inl b'.
Proof. intros E1 E2. unfold Inv, content. rewrite E1, E2. auto. Qed.
Lemma raw_adds s b : shape (buf b) (newline_count b) -> s <> [] -> exists sp, content (raw s b) = content b ++ spc sp ++ s /\ shape (buf (raw s b)) (newline_count (raw s b)) /\ (sp = false -> ends [96] (content b) = true -> starts [96] s = false) /\
  pending_space (raw s b) = false /\ (pending_space b = false -> last_backtick (buf b) = false \/ starts [96] s = false -> sp = false) /\ (exists l, buf (raw s b) = s :: l).
Proof.
  intros Sh Hs. destruct s as [|first s]; [congruence|]. cbn [raw]. set (c1 := pending_space b && _ && _ && _ && _). set (buf1 := if c1 then [32] :: buf b else buf b). set (c2 := (newline_count b =? 0)%nat && last_backtick buf1 && (first =? 96)).
  assert (One : c1 = true -> c2 = false) by (intros E; unfold c2, buf1; rewrite E; cbn [last_backtick rev app]; change (32 =? 96) with false; rewrite andb_false_r; reflexivity).
  set (nc := if mem 10 (first :: s) then _ else _). assert (Nc : forall l, shape ((first :: s) :: l) nc).
  { intros l. split; [discriminate|]. unfold nc. destruct (mem 10 (first :: s)); [|congruence]. intros H. destruct (snoc_of (first :: s) ltac:(discriminate)) as (h & y & E). rewrite E in H |- *. rewrite rev_app_distr in H. cbn [rev app take_while] in H. destruct (N.eqb_spec y 10) as [Ey|Ey]; [rewrite Ey; exists h, l; reflexivity|]. cbn [List.length] in H. rewrite Nat.min_0_r in H. congruence. }
  exists (c1 || c2). split; [|split; [exact (Nc _)|split]].
  - rewrite content_cons. unfold content, buf1. destruct c1; [rewrite (One eq_refl)|destruct c2]; cbn [orb spc rev]; rewrite ?concat_app; cbn [List.concat app]; rewrite ?app_nil_r, <- ?app_assoc; reflexivity.
  - intros E T. apply orb_false_iff in E as [E1 E2]. rewrite (last_tick b Sh) in T. unfold c2, buf1 in E2. rewrite E1, T in E2. rewrite starts1, N.eqb_sym. destruct (Nat.eqb_spec (newline_count b) 0) as [_|Hn]; [exact E2|]. exfalso. destruct Sh as [_ Sh]. destruct (Sh Hn) as (h & t & E). rewrite E in T. unfold last_backtick in T. rewrite rev_app_distr in T. discriminate T.
  - split; [reflexivity|]. split; [|exists (if c2 then [32] :: buf1 else buf1); reflexivity]. intros Hp Hq. assert (E1 : c1 = false) by (unfold c1; rewrite Hp; reflexivity). unfold c2, buf1. rewrite E1. cbn [orb]. destruct Hq as [-> | Hq]; [rewrite andb_false_r; reflexivity|]. rewrite starts1, N.eqb_sym in Hq. rewrite Hq, andb_false_r. reflexivity.
Qed.
Lemma markup_space f : markup (spc f).
Proof. destruct f; [|constructor]. apply plain_markup. intros c [<-|[]]. intros I. cbn in I. repeat (destruct I as [I|I]; [discriminate I|]). destruct I. Qed.
Lemma join_sp a f s : markup a -> markup s -> (f = false -> ends [96] a = true -> starts [96] s = false) -> markup (a ++ spc f ++ s).
Proof.
  intros Ha Hs H. destruct f; cbn [spc app].
  - apply markup_app; [exact Ha| |reflexivity]. apply (markup_app [32] s (markup_space true) Hs). discriminate.
  - apply markup_app; [exact Ha|exact Hs|apply H; reflexivity].
Qed.
Lemma no_lf_sp f : ~ In 10 (spc f).
Proof. destruct f; cbn; intros I; [destruct I as [I|[]]; discriminate I|destruct I]. Qed.
Lemma inv_raw inl s b : Inv inl b -> markup s -> (inl = true -> ~ In 10 s) -> Inv inl (raw s b).
Proof.
  intros (H1 & H2 & H3) Hs Ns. destruct s as [|c s]; [exact (conj H1 (conj H2 H3))|]. set (w := c :: s) in *. destruct (raw_adds w b H2 ltac:(discriminate)) as (sp & K1 & K2 & K3 & _). split; [rewrite K1; apply join_sp; assumption|]. split; [exact K2|]. intros E. rewrite K1. intros I. apply in_app_or in I as [I|I]; [exact (H3 E I)|]. apply in_app_or in I as [I|I]; [exact (no_lf_sp _ I)|exact (Ns E I)].
Qed.
Lemma inv_text inl d b : Inv inl b -> Inv inl (text (escape_text d) b).
Proof.
  intros (H1 & H2 & H3). destruct (text_adds d b) as (sp & o & b' & K1 & K2 & K3 & K4 & K5 & _). rewrite K1. pose proof (displays_start _ _ K3) as S0. pose proof (displays_no_lf _ _ K3) as L0.
  split; [rewrite K2; apply join_sp; [exact H1|exact (displays_markup _ _ K3)|intros _ _; exact S0]|]. split.
  - destruct (drop_while html_space d) as [|c s]; [destruct (K5 eq_refl) as (_ & -> & ->); exact H2|]. destruct (K4 ltac:(discriminate)) as (Z & h & x & l & E & _). rewrite Z, E. split; [destruct h; discriminate|]. intros F. congruence.
  - intros E. rewrite K2. intros I. apply in_app_or in I as [I|I]; [exact (H3 E I)|]. apply in_app_or in I as [I|I]; [exact (no_lf_sp _ I)|exact (L0 I)].
Qed.
Lemma text_space b : text [32] b = Builder (quote_depth b) (buf b) (leading_space b || empty_buf b) (newline_count b) true.
Proof. reflexivity. Qed.
Lemma inv_space inl b : Inv inl b -> Inv inl (text [32] b).
Proof. apply inv_same; reflexivity. Qed.
Lemma inv_spaced inl f b : Inv inl b -> Inv inl (spaced f b).
Proof. destruct f; [apply inv_space|auto]. Qed.
Lemma rstrip_concat l : List.concat (rev (rstrip_last l)) = match l with [] => [] | x :: l => List.concat (rev l) ++ rstrip_by sp_tab x end.
Proof. destruct l as [|x l]; [reflexivity|]. cbn [rstrip_last rev]. rewrite concat_app. cbn [List.concat]. rewrite app_nil_r. reflexivity. Qed.
Lemma markup_tail a x : markup (a ++ x) -> (forall c, In c x -> blank3 c = true) -> markup a.
Proof.
  revert a. induction x as [|c x IH] using rev_ind; intros a H Hx; [rewrite app_nil_r in H; exact H|]. apply IH; [|intros y I; apply Hx, in_or_app; left; exact I]. rewrite app_assoc in H. apply (markup_rcut _ H _ c eq_refl). apply Hx, in_or_app. right. left. reflexivity.
Qed.
Lemma inv_newline b : Inv false b -> Inv false (newline b).
Proof.
  intros (H1 & H2 & H3). unfold newline. split.
  - rewrite content_cons, rstrip_concat. assert (K : markup (match buf b with [] => [] | x :: l => List.concat (rev l) ++ rstrip_by sp_tab x end)).
    { unfold content in H1. destruct (buf b) as [|x l]; [constructor|]. cbn [rev] in H1. rewrite concat_app in H1. cbn [List.concat] in H1. rewrite app_nil_r in H1. destruct (rstrip_split sp_tab x) as (t & E & Ht). rewrite E, app_assoc in H1. apply (markup_tail _ t H1). intros c I. apply blank3_sp, Ht, I. }
    apply markup_app; [exact K| |reflexivity]. apply plain_markup. intros c [<-|[]] I. cbn in I. repeat (destruct I as [I|I]; [discriminate I|]). destruct I.
  - split; [|discriminate]. split; [discriminate|]. intros _. exists [], (rstrip_last (buf b)). reflexivity.
Qed.
Lemma inv_ensure n b : Inv false b -> Inv false (ensure_newlines n b).
Proof. intros H. unfold ensure_newlines. induction (n - newline_count b)%nat as [|k IH]; [exact H|]. cbn [Nat.iter nat_rect]. apply inv_newline, IH. Qed.
Lemma inv_blank b : Inv false b -> Inv false (blank_first b).
Proof. apply inv_ensure. Qed.
Lemma finish_markup inl b : Inv inl b -> markup (finish b) /\ (inl = true -> ~ In 10 (finish b)).
Proof. intros (H1 & _ & H3). split; [exact (markup_strip _ H1)|]. intros E I. apply (H3 E). exact (strip_incl _ _ _ I). Qed.
Lemma inv_open inl b : Inv inl b -> Inv inl (if inl then b else blank_first b).
Proof. destruct inl; [auto|apply inv_blank]. Qed.
Lemma inv_close inl b : Inv inl b -> Inv inl (if inl then text [32] b else ensure_newlines 2 b).
Proof. destruct inl; [apply inv_space|apply inv_ensure]. Qed.
Lemma chars_markup s : forallb (fun c => negb (mem c structural)) s = true -> markup s.
Proof. intros H. apply plain_markup. intros c I J. rewrite forallb_forall in H. specialize (H c I). apply StrFacts.mem_In in J. rewrite J in H. discriminate H. Qed.
Lemma inv_quote lines : forall first b, (forall l, In l lines -> markup l) -> Inv false b -> Inv false (quote_lines first lines b).
Proof.
  induction lines as [|l lines IH]; intros first b Hl H; [exact H|]. cbn [quote_lines]. apply IH; [intros x I; apply Hl; right; exact I|]. apply inv_raw; [|apply Hl; left; reflexivity|discriminate]. apply inv_raw; [|apply chars_markup; reflexivity|discriminate]. destruct first; [exact H|apply inv_newline, H].
Qed.
Lemma inv_after_quote parent inner : Inv false parent -> Inv false inner -> Inv false (after_blockquote parent inner).
Proof.
  intros Hp Hi. unfold after_blockquote. cbv zeta. apply inv_ensure. destruct (finish_markup _ _ Hi) as [K _]. destruct (finish inner) as [|c t]; [apply inv_blank, Hp|]. apply inv_quote; [intros l; apply (markup_lines _ K)|apply inv_blank, Hp].
Qed.
Lemma inv_after_marker inl parent inner m : markup m -> ~ In 10 m -> Inv inl parent -> Inv inl inner -> Inv inl (after_marker parent inner m).
Proof.
  intros Hm Nm Hp Hi. unfold after_marker. cbv zeta. destruct (finish_markup _ _ Hi) as [K1 K2]. apply (inv_spaced inl (leading_space inner)) in Hp. destruct (finish inner) as [|c t] eqn:E; [apply inv_spaced, Hp|]. rewrite <- E in *. destruct (mem 10 (finish inner)) eqn:M.
  - destruct inl; [destruct (K2 eq_refl); apply StrFacts.mem_In, M|]. apply inv_raw; [apply inv_blank, Hp|exact K1|discriminate].
  - apply inv_spaced. apply inv_raw; [|exact Hm|intros _; exact Nm]. apply inv_raw; [|exact K1|exact K2]. apply inv_raw; [exact Hp|exact Hm|intros _; exact Nm].
Qed.
Lemma raw_first s b : buf b = [] -> content (raw s b) = s.
Proof.
  intros E. destruct s as [|c s]; [unfold content, raw; rewrite E; reflexivity|]. unfold raw, empty_buf. rewrite E. unfold content. destruct (pending_space b), (html_space c), (newline_count b =? 0)%nat; cbn [negb andb last_backtick buf rev List.concat app]; f_equal; apply app_nil_r.
Qed.
Lemma inv_after_link inl parent inner href b' : Inv inl parent -> Inv true inner -> after_link parent inner href = Some b' -> Inv inl b' /\
  exists sp d, link_tail d /\ content b' = content parent ++ spc sp ++ 91 :: finish inner ++ 93 :: d /\ (href = [] -> d = []) /\ (forall x, href <> [] -> link_destination href = Some x -> d = 40 :: x ++ [41]) /\ (empty_buf parent = true -> sp = false).
Proof.
  intros Hp Hi H. unfold after_link in H. cbv zeta in H. destruct (finish_markup _ _ Hi) as [K1 K2]. specialize (K2 eq_refl). set (t := finish inner) in *.
  apply (inv_spaced inl (leading_space inner)) in Hp. assert (Cp : content (spaced (leading_space inner) parent) = content parent) by (destruct (leading_space inner); reflexivity). assert (Ep : empty_buf (spaced (leading_space inner) parent) = empty_buf parent) by (destruct (leading_space inner); reflexivity). set (b0 := spaced (leading_space inner) parent) in *.
  destruct Hp as (P1 & P2 & P3). destruct (raw_adds (u "[") b0 P2 ltac:(discriminate)) as (sp & A1 & A2 & A3 & A4 & _ & A6). set (b1 := raw (u "[") b0) in *.
  assert (E0 : empty_buf parent = true -> sp = false).
  { intros E. rewrite <- Ep in E. unfold b1 in A1, A6. unfold empty_buf in E. assert (A1' : content (raw (u "[") b0) = u "[") by (apply raw_first; destruct (buf b0); [reflexivity|discriminate E]). rewrite A1' in A1. assert (C0 : content b0 = []) by (unfold content; destruct (buf b0); [reflexivity|discriminate E]). rewrite C0 in A1. destruct sp; [discriminate A1|reflexivity]. }
  assert (L1 : last_backtick (buf b1) = false) by (destruct A6 as [l ->]; reflexivity).
  (* one more piece without a space *)
  assert (Step : forall s b, shape (buf b) (newline_count b) -> pending_space b = false -> last_backtick (buf b) = false \/ starts [96] s = false -> content (raw s b) = content b ++ s /\ shape (buf (raw s b)) (newline_count (raw s b)) /\ pending_space (raw s b) = false /\ (s <> [] -> exists l, buf (raw s b) = s :: l)).
  { intros s b Sb Pb Q. destruct s as [|c s]; [cbn [raw]; rewrite app_nil_r; repeat (split; [assumption||reflexivity|]); congruence|]. set (w := c :: s) in *. destruct (raw_adds w b Sb ltac:(discriminate)) as (sp' & B1 & B2 & _ & B4 & B5 & B6). rewrite (B5 Pb Q) in B1. split; [exact B1|]. split; [exact B2|]. split; [exact B4|intros _; exact B6]. }
  destruct (Step t b1 A2 A4 (or_introl L1)) as (B1 & B2 & B3 & _). set (b2 := raw t b1) in *. destruct (Step (u "]") b2 B2 B3 (or_intror eq_refl)) as (C1 & C2 & C3 & C4). set (b3 := raw (u "]") b2) in *. assert (L3 : last_backtick (buf b3) = false) by (destruct (C4 ltac:(discriminate)) as [l ->]; reflexivity).
  assert (C : content b3 = content parent ++ spc sp ++ 91 :: t ++ [93]) by (rewrite C1, B1, A1, Cp, <- !app_assoc; reflexivity).
  assert (Fin : forall b d, content b = content b3 ++ d -> shape (buf b) (newline_count b) -> link_tail d -> (href = [] -> d = []) -> (forall x, href <> [] -> link_destination href = Some x -> d = 40 :: x ++ [41]) -> Some (spaced (pending_space inner) b) = Some b' -> Inv inl b' /\ exists sp d, link_tail d /\ content b' = content parent ++ spc sp ++ 91 :: t ++ 93 :: d /\ (href = [] -> d = []) /\ (forall x, href <> [] -> link_destination href = Some x -> d = 40 :: x ++ [41]) /\ (empty_buf parent = true -> sp = false)).
  { intros b d Eb Sb Td Q1 Q2 F. injection F as <-. assert (Eq : content b = content parent ++ spc sp ++ 91 :: t ++ 93 :: d) by (rewrite Eb, C, <- !app_assoc; cbn [app]; rewrite <- !app_assoc; reflexivity). split; [apply inv_spaced|exists sp, d; split; [exact Td|split; [destruct (pending_space inner); exact Eq|split; [exact Q1|split; [exact Q2|exact E0]]]]]. split; [rewrite Eq; apply join_sp; [rewrite <- Cp; exact P1| |reflexivity]|split; [exact Sb|]].
    - replace d with (d ++ []) by apply app_nil_r. apply MLink; [exact K1|exact K2|exact Td|constructor].
    - intros E I. rewrite Eq in I. apply in_app_or in I as [I|I]; [rewrite <- Cp in I; exact (P3 E I)|]. apply in_app_or in I as [I|I]; [exact (no_lf_sp _ I)|]. destruct I as [I|I]; [discriminate I|]. apply in_app_or in I as [I|I]; [exact (K2 I)|]. destruct I as [I|I]; [discriminate I|exact (tail_no_lf d Td I)]. }
  destruct href as [|h0 href]; [cbn [bind] in H; apply (Fin b3 []); [rewrite app_nil_r; reflexivity|exact C2|constructor|reflexivity|congruence|exact H]|].
  set (hr := h0 :: href) in *. destruct (link_destination hr) as [d|] eqn:Ed; [|discriminate H]. cbn [bind] in H. apply (Fin (raw (u ")") (raw d (raw (u "(") b3))) (40 :: d ++ [41])); [|idtac|exact (destination_tail hr d Ed)|discriminate|congruence|exact H].
  - destruct (Step (u "(") b3 C2 C3 (or_introl L3)) as (D1 & D2 & D3 & D4). assert (L4 : last_backtick (buf (raw (u "(") b3)) = false) by (destruct (D4 ltac:(discriminate)) as [l ->]; reflexivity). destruct (Step d _ D2 D3 (or_introl L4)) as (F1 & F2 & F3 & _). destruct (Step (u ")") _ F2 F3 (or_intror eq_refl)) as (G1 & _). rewrite G1, F1, D1, <- !app_assoc. reflexivity.
  - destruct (Step (u "(") b3 C2 C3 (or_introl L3)) as (D1 & D2 & D3 & D4). assert (L4 : last_backtick (buf (raw (u "(") b3)) = false) by (destruct (D4 ltac:(discriminate)) as [l ->]; reflexivity). destruct (Step d _ D2 D3 (or_introl L4)) as (F1 & F2 & F3 & _). destruct (Step (u ")") _ F2 F3 (or_intror eq_refl)) as (_ & G2 & _). exact G2.
Qed.
(* ---------- code ---------- *)
Lemma splitlines_some c t : forall acc, splitlines_go acc (c :: t) <> [].
Proof. revert c. induction t as [|c' t IH]; intros c acc; cbn [splitlines_go]; destruct (_ && _), (line_break c); try discriminate. apply IH. Qed.
Lemma splitlines_first s : forall acc, acc <> [] -> exists l, match splitlines_go acc s with x :: _ => x = rev acc ++ l | [] => False end.
Proof.
  induction s as [|c s IH]; intros acc Ha; cbn [splitlines_go]; [destruct acc; [congruence|]; exists []; rewrite app_nil_r; reflexivity|].
  destruct (_ && _); [exists []; rewrite app_nil_r; reflexivity|]. destruct (line_break c); [exists []; rewrite app_nil_r; reflexivity|]. destruct (IH (c :: acc) ltac:(discriminate)) as (l & K). exists (c :: l). destruct (splitlines_go (c :: acc) s); [destruct K|]. rewrite K. cbn [rev]. rewrite <- app_assoc. reflexivity.
Qed.
Definition lone_breaks : list str := [[10]; [13]; [13; 10]].
Lemma one_line_empty s : one_line s = [] -> s = [] \/ In s lone_breaks.
Proof.
  unfold one_line. destruct (mem 10 s || mem 13 s) eqn:M; [|left; assumption]. intros E. right. destruct s as [|c t]; [discriminate M|]. unfold splitlines in E. cbn [splitlines_go] in E.
  assert (J : forall (x : str) l, join [32] (x :: l) = [] -> x = [] /\ l = []) by (intros x l F; cbn [join] in F; destruct l; [split; [exact F|reflexivity]|destruct x; discriminate F]).
  destruct ((c =? 13) && starts [10] t) eqn:Q.
  - apply andb_true_iff in Q as [Q1 Q2]. apply N.eqb_eq in Q1. subst c. apply starts_spec in Q2 as [t' ->]. cbn [app] in E. apply J in E as [_ E]. destruct t' as [|c' t']; [cbn; tauto|]. destruct (splitlines_some c' t' [] E).
  - destruct (line_break c) eqn:B.
    + apply J in E as [_ E]. destruct t as [|c' t']; [|destruct (splitlines_some c' t' [] E)]. apply orb_true_iff in M as [M|M]; apply StrFacts.mem_In in M; destruct M as [->|[]]; cbn; tauto.
    + destruct (splitlines_first t [c] ltac:(discriminate)) as (l & K). destruct (splitlines_go [c] t) as [|x xs]; [destruct K|]. apply J in E as [E _]. rewrite K in E. discriminate E.
Qed.
Lemma code_markup s : ~ In s lone_breaks -> markup (code_span s) /\ ~ In 10 (code_span s).
Proof.
  intros H. destruct (one_line s) as [|c t] eqn:E; [destruct (one_line_empty s E) as [->|K]; [split; [constructor|intros []]|destruct (H K)]|]. assert (Ne : one_line s <> []) by (rewrite E; discriminate). pose proof (code_span_ok s [] Ne eq_refl) as C. rewrite app_nil_r in C. destruct (code_at _ _ _ C) as (x & E1 & _ & _ & _ & N10 & _). rewrite app_nil_r in E1. split; [exact (MCode _ _ [] C MNil)|]. rewrite E1. exact N10.
Qed.
(* ---------- the walk ---------- *)
(* trees without img and table elements, without pre elements outside links, without raw text elements if these are passed through, and without code
   (or pre) elements that hold one line break only.  inl: inside a link *)
Fixpoint plain_in (passthrough inl : bool) (n : node) : bool :=
  match n with
  | NElem name _ _ cs tc =>
    negb (in_strs (lower name) [u "img"; u "table"]) && negb (str_eqb (lower name) (u "pre") && negb inl) && negb (passthrough && in_strs (lower name) [u "script"; u "style"; u "textarea"]) &&
    negb (in_strs (lower name) [u "code"; u "pre"] && in_strs (node_text n) lone_breaks) && forallb (plain_in passthrough (inl || str_eqb (lower name) (u "a"))) cs &&
    match tc with Some l => forallb (plain_in passthrough (inl || str_eqb (lower name) (u "a"))) l | None => true end
  | NDocument cs => forallb (plain_in passthrough inl) cs
  | _ => true
  end.
Definition plain_tree (passthrough : bool) (n : node) : bool := plain_in passthrough false n.
Lemma in_strs_cons x y l : in_strs x (y :: l) = str_eqb x y || in_strs x l.
Proof. reflexivity. Qed.
Lemma index_markup n s : markup s -> starts [96] s = false -> markup (index_str n ++ s).
Proof.
  intros H S0. apply markup_app; [|exact H|intros _; exact S0]. unfold index_str. apply (displays_markup _ (uint_str (Nat.to_uint n))), displays_digits. induction (Nat.to_uint n); cbn [uint_str forallb]; try reflexivity; rewrite IHu; reflexivity.
Qed.
Lemma spaces_markup n : markup (List.concat (repeat (u "  ") n)).
Proof. apply plain_markup. intros c I. assert (c = 32) as ->. { induction n as [|n IH]; [destruct I|]. cbn [repeat List.concat] in I. apply in_app_or in I as [I|I]; [cbn in I; destruct I as [I|[I|[]]]; congruence|exact (IH I)]. } intros J. cbn in J. repeat (destruct J as [J|J]; [discriminate J|]). destruct J. Qed.
Lemma hashes_markup n : markup (repeat 35 n).
Proof. apply plain_markup. intros c I. apply repeat_spec in I. subst c. intros J. cbn in J. repeat (destruct J as [J|J]; [discriminate J|]). destruct J. Qed.
Definition keeps (p : bool) (n : node) : Prop := forall inl, plain_in p inl n = true -> forall depth b b', Inv inl b -> walk p n depth inl b = Some b' -> Inv inl b'.
Definition kids (n : node) : list node := match n with NElem _ _ _ cs _ => cs | _ => [] end.
Theorem walk_inv p n : keeps p n /\ Forall (keeps p) (kids n).
Proof.
  induction n as [d|d|d|d|cs IH|name ns attrs cs tc IH IHt] using node_ind'; (split; [|try exact (Forall_nil _)]).
  - intros inl Pl depth b b' HI W. cbn [walk] in W. injection W as <-. apply inv_text, HI.
  - intros inl Pl depth b b' HI W. injection W as <-. exact HI.
  - intros inl Pl depth b b' HI W. injection W as <-. exact HI.
  - intros inl Pl depth b b' HI W. injection W as <-. exact HI.
  - intros inl Pl depth b b' HI W. cbn [walk] in W. cbn [plain_in] in Pl. revert depth b HI W. induction cs as [|c cs IHc]; intros depth b HI W; [injection W as <-; exact HI|]. inversion IH as [|? ? Hc Hcs]; subst. cbn [forallb] in Pl. apply andb_true_iff in Pl as [P1 P2]. destruct (walk p c depth inl b) as [b1|] eqn:E; [|discriminate W]. cbn [bind] in W. apply (IHc Hcs P2 depth b1); [exact (proj1 Hc _ P1 _ _ _ HI E)|exact W].
  - intros inl Pl depth b b' HI W. cbn [plain_in] in Pl. apply andb_true_iff in Pl as [Pl P5]. apply andb_true_iff in Pl as [Pl P4]. apply andb_true_iff in Pl as [Pl P3]. apply andb_true_iff in Pl as [Pl P2]. apply andb_true_iff in Pl as [P1 P6].
    assert (All : forall wa, wa = (fix walk_all (depth : nat) (inl : bool) (l : list node) (b : builder) {struct l} : option builder :=
      match l with [] => Some b | c :: l => do b <- walk p c depth inl b; walk_all depth inl l b end) ->
      forall l, Forall (keeps p) l -> forall inl, forallb (plain_in p inl) l = true -> forall depth b b', Inv inl b -> wa depth inl l b = Some b' -> Inv inl b').
    { intros wa ->. induction l as [|c l IHl]; intros F i0 Q d0 b0 b0' H0 W0; [injection W0 as <-; exact H0|]. inversion F as [|? ? Fc Fl]; subst. cbn [forallb] in Q. apply andb_true_iff in Q as [Q1 Q2]. cbn beta iota in W0. destruct (walk p c d0 i0 b0) as [b1|] eqn:E; [|discriminate W0]. cbn [bind] in W0. exact (IHl Fl i0 Q2 d0 b1 b0' (Fc i0 Q1 _ _ _ H0 E) W0). }
    cbn [walk] in W. set (wa := fix walk_all (depth : nat) (inl : bool) (l : list node) (b : builder) {struct l} : option builder :=
      match l with [] => Some b | c :: l => do b <- walk p c depth inl b; walk_all depth inl l b end) in W.
    specialize (All wa eq_refl). assert (IHc : Forall (keeps p) cs) by (apply Forall_forall; intros x I; rewrite Forall_forall in IH; exact (proj1 (IH x I))). pose proof (All cs IHc _ P4) as Ac.
    destruct (str_eqb (lower name) (u "a")) eqn:Ea.
    { apply str_eqb_eq in Ea. clear P1 P2 P3 P6.
      assert (N1 : str_eqb name (u "br") = false) by (destruct (str_eqb name (u "br")) eqn:K; [apply str_eqb_eq in K; subst name; vm_compute in Ea; discriminate Ea|reflexivity]).
      assert (N2 : starts [35] name = false) by (destruct (starts [35] name) eqn:K; [apply starts_spec in K as [t ->]; rewrite lower_app in Ea; assert (Z : lower [35] = [35]) by (vm_compute; reflexivity); rewrite Z in Ea; discriminate Ea|reflexivity]).
      rewrite N1, N2, Ea in W. rewrite orb_true_r in Ac.
      change ((do inner <- wa depth true cs (new_builder (quote_depth b)); after_link b inner (href_of attrs)) = Some b') in W.
      destruct (wa depth true cs (new_builder (quote_depth b))) as [b1|] eqn:E; [|discriminate W]. cbn [bind] in W. apply (inv_after_link inl b b1 (href_of attrs) b' HI); [|exact W]. apply (Ac _ _ _) with (2 := E). apply inv_new. }
    rewrite orb_false_r in *.
    destruct (str_eqb name (u "br")); [assert (b' = if inl then text [32] b else newline b) as -> by congruence; destruct inl; [apply inv_space, HI|apply inv_newline, HI]|].
    destruct (starts [35] name); [exact (Ac _ _ _ HI W)|]. set (tag := lower name) in *. cbv zeta in W.
    destruct (in_strs tag [u "head"; u "title"]); [injection W as <-; exact HI|].
    rewrite !in_strs_cons in P1. destruct (str_eqb tag (u "img")); [discriminate P1|]. cbn [orb negb] in P1. rewrite in_strs_cons in W. destruct (str_eqb tag (u "table")); [discriminate P1|]. cbn [orb negb] in P1, W. clear P1.
    destruct (in_strs tag [u "script"; u "style"; u "textarea"]).
    { rewrite andb_true_r in P2. destruct p; [discriminate P2|]. cbn [bind] in W. injection W as <-. destruct inl; [exact HI|]. apply inv_ensure, inv_blank, HI. }
    destruct (heading tag) as [level|].
    { destruct (wa depth inl cs (if inl then b else raw [32] (raw (repeat 35 level) (blank_first b)))) as [b1|] eqn:E; [|discriminate W]. cbn [bind] in W. injection W as <-. assert (H1 : Inv inl b1).
      { apply (Ac _ _ _) with (2 := E). destruct inl; [exact HI|]. apply inv_raw; [|apply chars_markup; reflexivity|discriminate]. apply inv_raw; [apply inv_blank, HI|apply hashes_markup|discriminate]. }
      destruct inl; [exact H1|apply inv_ensure, H1]. }
    destruct (str_eqb tag (u "hr")).
    { assert (b' = if inl then b else ensure_newlines 2 (raw (u "---") (blank_first b))) as -> by congruence. destruct inl; [exact HI|]. apply inv_ensure, inv_raw; [apply inv_blank, HI|apply chars_markup; reflexivity|discriminate]. }
    rewrite !in_strs_cons in P3. change (in_strs tag []) with false in P3. rewrite orb_false_r in P3. destruct (str_eqb tag (u "pre")) eqn:Ep.
    { destruct inl; [|discriminate P6]. assert (b' = raw (code_span (node_text (NElem name ns attrs cs tc))) b) as -> by congruence. rewrite orb_true_r in P3. cbn [andb] in P3. set (s := node_text _) in *. assert (Ns : ~ In s lone_breaks) by (intros I; assert (in_strs s lone_breaks = true) as K by (apply existsb_exists; exists s; split; [exact I|apply str_eqb_refl]); rewrite K in P3; discriminate P3). destruct (code_markup s Ns) as [C1 C2]. apply inv_raw; [exact HI|exact C1|intros _; exact C2]. }
    clear P6. destruct (str_eqb tag (u "code")).
    { assert (b' = raw (code_span (node_text (NElem name ns attrs cs tc))) b) as -> by congruence. cbn [andb orb] in P3. set (s := node_text _) in *. assert (Ns : ~ In s lone_breaks) by (intros I; assert (in_strs s lone_breaks = true) as K by (apply existsb_exists; exists s; split; [exact I|apply str_eqb_refl]); rewrite K in P3; discriminate P3). destruct (code_markup s Ns) as [C1 C2]. apply inv_raw; [exact HI|exact C1|intros _; exact C2]. }
    clear P3. destruct (str_eqb tag (u "p")).
    { destruct (wa depth inl cs (if inl then b else blank_first b)) as [b1|] eqn:E; [|discriminate W]. cbn [bind] in W. injection W as <-. apply inv_close. apply (Ac _ _ _) with (2 := E). apply inv_open, HI. }
    destruct (str_eqb tag (u "blockquote")).
    { destruct inl; [exact (Ac _ _ _ HI W)|]. destruct (quote_depth b <? max_quote_depth)%nat; [|exact (Ac _ _ _ HI W)]. destruct (wa depth false cs (new_builder (S (quote_depth b)))) as [b1|] eqn:E; [|discriminate W]. cbn [bind] in W. injection W as <-. apply inv_after_quote; [exact HI|]. apply (Ac _ _ _) with (2 := E). apply inv_new. }
    destruct (in_strs tag [u "ul"; u "ol"]).
    { assert (It : forall nm n2 a2 ics tc2, In (NElem nm n2 a2 ics tc2) cs -> str_eqb (lower nm) (u "li") = true -> forall depth b b', Inv inl b -> wa depth inl ics b = Some b' -> Inv inl b').
      { intros nm n2 a2 ics tc2 Il Eli. assert (Q : plain_in p inl (NElem nm n2 a2 ics tc2) = true) by (rewrite forallb_forall in P4; exact (P4 _ Il)). cbn [plain_in] in Q. apply andb_true_iff in Q as [Q _]. apply andb_true_iff in Q as [_ Q]. apply str_eqb_eq in Eli. rewrite Eli in Q. change (str_eqb (u "li") (u "a")) with false in Q. rewrite orb_false_r in Q. rewrite Forall_forall in IH. exact (All ics (proj2 (IH _ Il)) _ Q). }
      clear P4 P5 Ac IHc IH IHt All. destruct inl.
      - revert b HI W. induction cs as [|c cs IHl]; intros b HI W; [injection W as <-; exact HI|]. assert (It' : forall nm n2 a2 ics tc2, In (NElem nm n2 a2 ics tc2) cs -> str_eqb (lower nm) (u "li") = true -> forall depth b b', Inv true b -> wa depth true ics b = Some b' -> Inv true b') by (intros nm n2 a2 ics tc2 Il; exact (It nm n2 a2 ics tc2 (or_intror Il))).
        destruct c as [| | | | |nm n2 a2 ics tc2]; try exact (IHl It' b HI W). cbn beta iota in W. destruct (str_eqb (lower nm) (u "li")) eqn:Eli; [|exact (IHl It' b HI W)]. destruct (wa (S depth) true ics (raw [32] b)) as [b1|] eqn:E; [|discriminate W]. cbn [bind] in W. apply (IHl It' b1); [|exact W]. apply (It nm n2 a2 ics tc2 (or_introl eq_refl) Eli _ _ _) with (2 := E). apply inv_raw; [exact HI|apply (markup_space true)|intros _; apply (no_lf_sp true)].
      - match type of W with bind ?x _ = _ => destruct x as [b1|] eqn:E; [|discriminate W] end. cbn [bind] in W. injection W as <-. apply inv_ensure. apply inv_blank in HI. revert HI E. generalize (blank_first b) as b0. generalize 1%nat as index. intros index. revert index. clear b. induction cs as [|c cs IHl]; intros index b HI W; [injection W as <-; exact HI|]. assert (It' : forall nm n2 a2 ics tc2, In (NElem nm n2 a2 ics tc2) cs -> str_eqb (lower nm) (u "li") = true -> forall depth b b', Inv false b -> wa depth false ics b = Some b' -> Inv false b') by (intros nm n2 a2 ics tc2 Il; exact (It nm n2 a2 ics tc2 (or_intror Il))).
        destruct c as [| | | | |nm n2 a2 ics tc2]; try exact (IHl It' index b HI W). cbn beta iota in W. destruct (str_eqb (lower nm) (u "li")) eqn:Eli; [|exact (IHl It' index b HI W)]. cbv zeta in W. match type of W with bind ?x _ = _ => destruct x as [b2|] eqn:E; [|discriminate W] end. cbn [bind] in W. apply (IHl It' (S index) b2); [|exact W]. apply (It nm n2 a2 ics tc2 (or_introl eq_refl) Eli _ _ _) with (2 := E).
        apply inv_raw; [|destruct (str_eqb tag (u "ol")); [apply index_markup; [apply chars_markup; reflexivity|reflexivity]|apply chars_markup; reflexivity]|discriminate]. apply inv_raw; [|apply spaces_markup|discriminate]. destruct index as [|[|i]]; [apply inv_newline, HI|exact HI|apply inv_newline, HI]. }
    destruct (in_strs tag [u "em"; u "i"]).
    { destruct (wa depth inl cs (new_builder (quote_depth b))) as [b1|] eqn:E; [|discriminate W]. cbn [bind] in W. injection W as <-. apply inv_after_marker; [apply chars_markup; reflexivity|intros [I|[]]; discriminate I|exact HI|]. apply (Ac _ _ _) with (2 := E). apply inv_new. }
    destruct (in_strs tag [u "strong"; u "b"]).
    { destruct (wa depth inl cs (new_builder (quote_depth b))) as [b1|] eqn:E; [|discriminate W]. cbn [bind] in W. injection W as <-. apply inv_after_marker; [apply chars_markup; reflexivity|intros [I|[I|[]]]; discriminate I|exact HI|]. apply (Ac _ _ _) with (2 := E). apply inv_new. }
    destruct (wa depth inl cs (if in_strs tag block_elements then if inl then b else blank_first b else b)) as [b1|] eqn:E; [|discriminate W]. cbn [bind] in W. assert (H1 : Inv inl b1) by (apply (Ac _ _ _) with (2 := E); destruct (in_strs tag block_elements); [apply inv_open, HI|exact HI]).
    destruct (match tc with Some l => wa depth inl l b1 | None => Some b1 end) as [b2|] eqn:E2; [|discriminate W]. cbn [bind] in W. assert (b' = if in_strs tag block_elements then if inl then text [32] b2 else ensure_newlines 2 b2 else b2) as -> by congruence.
    assert (H2 : Inv inl b2). { destruct tc as [l|]; [|injection E2 as <-; exact H1]. assert (Il : Forall (keeps p) l) by (specialize (IHt l eq_refl); apply Forall_forall; intros x I; rewrite Forall_forall in IHt; exact (proj1 (IHt x I))). exact (All l Il _ P5 _ _ _ H1 E2). }
    destruct (in_strs tag block_elements); [apply inv_close, H2|exact H2].
  - cbn [kids]. apply Forall_forall. intros x I. rewrite Forall_forall in IH. exact (proj1 (IH x I)).
Qed.
Theorem document_markup p n out : plain_tree p n = true -> to_markdown p n = Some out -> markup out.
Proof.
  intros Pl H. unfold to_markdown in H. destruct (walk p n 0 false (new_builder 0)) as [b|] eqn:E; [|discriminate H]. cbn [option_map] in H. assert (out = finish b) as -> by congruence. apply (finish_markup false). exact (proj1 (walk_inv p n) _ Pl _ _ _ (inv_new _ _) E).
Qed.
(* a link: its text and its destination *)
Theorem link_output p name ns attrs cs tc out : lower name = u "a" -> plain_tree p (NElem name ns attrs cs tc) = true -> to_markdown p (NElem name ns attrs cs tc) = Some out ->
  exists t d, out = 91 :: t ++ 93 :: d /\ markup t /\ ~ In 10 t /\ link_tail d /\ (href_of attrs = [] -> d = []) /\ (forall x, href_of attrs <> [] -> link_destination (href_of attrs) = Some x -> d = 40 :: x ++ [41]).
Proof.
  intros En Pl H. unfold to_markdown in H. destruct (walk p (NElem name ns attrs cs tc) 0 false (new_builder 0)) as [b|] eqn:W; [|discriminate H]. cbn [option_map] in H. assert (out = finish b) as -> by congruence. clear H.
  assert (N1 : str_eqb name (u "br") = false) by (destruct (str_eqb name (u "br")) eqn:K; [apply str_eqb_eq in K; subst name; vm_compute in En; discriminate En|reflexivity]).
  assert (N2 : starts [35] name = false) by (destruct (starts [35] name) eqn:K; [apply starts_spec in K as [t ->]; rewrite lower_app in En; assert (Z : lower [35] = [35]) by (vm_compute; reflexivity); rewrite Z in En; discriminate En|reflexivity]).
  cbn [walk] in W. set (wa := fix walk_all (depth : nat) (inl : bool) (l : list node) (b : builder) {struct l} : option builder :=
      match l with [] => Some b | c :: l => do b <- walk p c depth inl b; walk_all depth inl l b end) in W. rewrite N1, N2, En in W.
  change ((do inner <- wa 0%nat true cs (new_builder 0); after_link (new_builder 0) inner (href_of attrs)) = Some b) in W. destruct (wa 0%nat true cs (new_builder 0)) as [b1|] eqn:E; [|discriminate W]. cbn [bind] in W.
  assert (H1 : Inv true b1).
  { unfold plain_tree in Pl. cbn [plain_in] in Pl. apply andb_true_iff in Pl as [Pl _]. apply andb_true_iff in Pl as [_ Pl]. rewrite En in Pl. change (false || str_eqb (u "a") (u "a")) with true in Pl. pose proof (proj2 (walk_inv p (NElem name ns attrs cs tc))) as F. cbn [kids] in F. clear - F Pl E. revert b1 E. generalize (inv_new true 0). generalize (new_builder 0) as b. induction cs as [|c cs IH]; intros b Hb b1 E; [injection E as <-; exact Hb|]. inversion F as [|? ? Fc Fl]; subst. cbn [forallb] in Pl. apply andb_true_iff in Pl as [P1 P2]. change (bind (walk p c 0%nat true b) (fun b => wa 0%nat true cs b) = Some b1) in E. destruct (walk p c 0%nat true b) as [b2|] eqn:E2; [|discriminate E]. cbn [bind] in E. exact (IH P2 Fl b2 (Fc true P1 _ _ _ Hb E2) b1 E). }
  destruct (inv_after_link false _ _ _ _ (inv_new false 0) H1 W) as (_ & sp & d & Td & C & Q1 & Q2 & Q3). rewrite (Q3 eq_refl) in C. cbn [spc content new_builder buf rev List.concat app] in C. destruct (finish_markup _ _ H1) as [K1 K2]. exists (finish b1), d. split; [|split; [exact K1|split; [exact (K2 eq_refl)|split; [exact Td|split; assumption]]]].
  unfold finish at 1. change (List.concat (rev (buf b))) with (content b). rewrite C. apply strip_by_id.
  - intros c t Ec. injection Ec as <- _. reflexivity.
  - intros c t Ec. destruct (link_end (finish b1) d Td) as (z & y & Ez & Hy). cbn [app] in Ez. rewrite Ez in Ec. apply app_inj_tail in Ec as [_ <-]. destruct Hy as [-> | ->]; reflexivity.
Qed.
