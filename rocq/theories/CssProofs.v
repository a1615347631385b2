(* Proofs about CssModel.v against CssSpec.v. *)
From Coq Require Import Lia ZifyBool ZifyN ZifyNat Wf_nat.
From Verif Require Import Str StrFacts ListFacts CssSpec CssTokFacts UrlModel UrlListProofs CssModel.
Open Scope N_scope.

Definition infix (n s : str) : Prop := exists a b, s = (a ++ n ++ b)%list.
Lemma infix_refl s : infix s s. Proof. exists [], []. rewrite app_nil_r; reflexivity. Qed.
Lemma infix_trans a b c : infix a b -> infix b c -> infix a c.
Proof. intros (x & y & ->) (x' & y' & ->). exists (x' ++ x)%list, (y ++ y')%list. rewrite <- !app_assoc; reflexivity. Qed.
Lemma infix_In a b c : infix a b -> In c a -> In c b.
Proof. intros (x & y & ->) H. apply in_or_app; right; apply in_or_app; left; exact H. Qed.
Lemma infix_app_l a b n : infix n a -> infix n (a ++ b)%list.
Proof. intros (x & y & ->). exists x, (y ++ b)%list. rewrite <- !app_assoc; reflexivity. Qed.
Lemma infix_app_r a b n : infix n b -> infix n (a ++ b)%list.
Proof. intros (x & y & ->). exists (a ++ x)%list, y. rewrite <- !app_assoc; reflexivity. Qed.
Lemma infix_sep n a b x : ~ In x n -> infix n (a ++ x :: b)%list -> infix n a \/ infix n b.
Proof. intros H (p & q & E). destruct (occ_split n a b p q x H E) as [[q' ->]|[p' ->]]; [left; exists p, q'|right; exists p', q]; reflexivity. Qed.
Lemma contains_infix n s : contains n s = true <-> infix n s.
Proof. rewrite contains_spec. reflexivity. Qed.
(* an occurrence of a string that ends in [x] does not reach into a tail without [x] *)
Lemma infix_end (n : str) (x : N) (y z a b : str) : ~ In x z -> (y ++ z = a ++ (n ++ [x]) ++ b)%list -> exists b', (y = a ++ (n ++ [x]) ++ b')%list.
Proof.
  intros Hz E. replace (a ++ (n ++ [x]) ++ b)%list with ((a ++ n) ++ x :: b)%list in E by (rewrite <- !app_assoc; reflexivity).
  apply app_eq_app in E. destruct E as (l & [[E1 E2]|[E1 E2]]).
  - destruct l as [|w l].
    + cbn in E2. exfalso. apply Hz. rewrite <- E2. left; reflexivity.
    + cbn in E2. assert (w = x /\ b = (l ++ z)%list) as [-> _] by (split; congruence). exists l. rewrite E1, <- !app_assoc. reflexivity.
  - exfalso. apply Hz. rewrite E2. apply in_or_app; right; left; reflexivity.
Qed.

(* ---- compact ---- *)
Definition keepc (c : N) : bool := negb ((c <=? 32) || (c =? 127)).
Definition fm (x : str) : str := map alow_c (filter keepc x).
Lemma fm_app a b : fm (a ++ b)%list = (fm a ++ fm b)%list.
Proof. unfold fm. rewrite filter_app, map_app. reflexivity. Qed.
Lemma fm_id x : forallb keepc x = true -> fm x = alow x.
Proof. unfold fm, alow. intros H. f_equal. induction x as [|c x IH]; [reflexivity|]. cbn [forallb filter] in *. apply andb_prop in H; destruct H as [-> H]. rewrite IH; auto. Qed.
Lemma fm_infix n s : infix n s -> forallb keepc n = true -> infix (alow n) (fm s).
Proof. intros (a & b & ->) H. rewrite !fm_app, (fm_id n H). exists (fm a), (fm b). reflexivity. Qed.
Lemma compact_noslash x t : ~ In 47 x -> compact (x ++ t)%list = option_map (app (fm x)) (compact t).
Proof.
  unfold compact. induction x as [|c x IH]; intros H; cbn [app].
  - destruct (compact_go false 0 t); reflexivity.
  - assert (Hc : c =? 47 = false) by (apply N.eqb_neq; intros ->; apply H; left; reflexivity).
    cbn [compact_go]. rewrite Hc. cbn [andb]. rewrite IH by (intros H'; apply H; right; exact H').
    unfold fm. cbn [filter]. unfold keepc at 3. destruct ((c <=? 32) || (c =? 127)); cbn [negb]; [reflexivity|].
    destruct (compact_go false 0 t); reflexivity.
Qed.
Lemma contains_cons n c t : contains n (c :: t) = false -> contains n t = false.
Proof. rewrite !contains_false. intros H a b E. apply (H (c :: a) b). rewrite E; reflexivity. Qed.
Lemma compact_nocomment v : contains (u "/*") v = false -> compact v = Some (fm v).
Proof.
  unfold compact. induction v as [|c t IH]; intros H; [reflexivity|]. cbn [compact_go].
  assert (Hc : (c =? 47) && match match t with [] => None | d :: _ => Some d end with Some d => d =? 42 | None => false end = false).
  { destruct (N.eqb_spec c 47) as [->|_]; [|reflexivity]. destruct t as [|d t]; [reflexivity|]. cbn.
    destruct (N.eqb_spec d 42) as [->|_]; [|reflexivity]. exfalso. apply (proj1 (contains_false _ _) H [] t). reflexivity. }
  rewrite Hc, (IH (contains_cons _ _ _ H)). unfold fm. cbn [filter]. unfold keepc at 3. destruct ((c <=? 32) || (c =? 127)); reflexivity.
Qed.
Lemma compact_app_go a b : (forall t, b <> 42 :: t) -> forall inc skip ca, (skip <= List.length a)%nat -> compact_go inc skip a = Some ca ->
  compact_go inc skip (a ++ b)%list = option_map (app ca) (compact b).
Proof.
  intros Hb. induction a as [|c t IH]; intros inc skip ca Hk H.
  - cbn in Hk. assert (skip = 0%nat) as -> by lia. cbn in H. destruct inc; [discriminate H|]. assert (ca = []) as -> by congruence.
    cbn [app]. unfold compact. destruct (compact_go false 0 b); reflexivity.
  - cbn [app compact_go List.length] in *. destruct skip as [|k]; [|apply IH; [lia|exact H]].
    destruct inc.
    + destruct t as [|d t]; [discriminate H|]. cbn [app]. destruct ((c =? 42) && (d =? 47)); (apply (IH _ _ ca); [cbn; lia|exact H]).
    + assert (E : (c =? 47) && match match (t ++ b)%list with [] => None | d :: _ => Some d end with Some d => d =? 42 | None => false end
                = (c =? 47) && match match t with [] => None | d :: _ => Some d end with Some d => d =? 42 | None => false end).
      { destruct t as [|d t]; [|reflexivity]. cbn. destruct b as [|d b]; [reflexivity|]. destruct (N.eqb_spec d 42) as [->|_]; [exfalso; exact (Hb b eq_refl)|]. reflexivity. }
      rewrite E. destruct ((c =? 47) && _) eqn:E47.
      * destruct t as [|d t]; [rewrite andb_false_r in E47; discriminate E47|]. apply IH; [cbn; lia|exact H].
      * destruct ((c <=? 32) || (c =? 127)); [apply IH; [lia|exact H]|].
        destruct (compact_go false 0 t) as [c0|] eqn:E0; [|discriminate H]. rewrite (IH false 0%nat c0 ltac:(lia) E0).
        cbn in H. assert (ca = alow_c c :: c0) as -> by congruence. destruct (compact b); reflexivity.
Qed.
Lemma compact_app a b ca : (forall t, b <> 42 :: t) -> compact a = Some ca -> compact (a ++ b)%list = option_map (app ca) (compact b).
Proof. intros Hb H. apply (compact_app_go a b Hb false 0%nat ca); [lia|exact H]. Qed.
Lemma compact_in_comment s : compact_go true 0 s = match find (u "*/") s with Some i => compact (skipn (i + 2) s) | None => None end.
Proof.
  induction s as [|c t IH]; [reflexivity|]. cbn [compact_go find].
  destruct t as [|d t].
  - change (u "*/") with [42; 47]. cbn [starts]. rewrite andb_false_r. reflexivity.
  - replace (starts (u "*/") (c :: d :: t)) with ((c =? 42) && (d =? 47)).
    2: { change (u "*/") with [42; 47]. cbn [starts]. rewrite andb_true_r. rewrite (N.eqb_sym 42 c), (N.eqb_sym 47 d). reflexivity. }
    destruct ((c =? 42) && (d =? 47)); [reflexivity|]. rewrite IH. destruct (find (u "*/") (d :: t)); reflexivity.
Qed.
Lemma compact_comment c t cc : starts (u "/*") (c :: t) = true -> compact (c :: t) = Some cc -> compact (after_comment (tl t)) = Some cc.
Proof.
  intros H Hc. apply starts_spec in H. destruct H as [r E]. cbn in E. assert (c = 47 /\ t = 42 :: r) as [-> ->] by (split; congruence).
  change (compact_go true 0 r = Some cc) in Hc. rewrite compact_in_comment in Hc. cbn [tl]. unfold after_comment.
  destruct (find (u "*/") r); [exact Hc|discriminate Hc].
Qed.

(* ---- one declaration ---- *)
Definition the_san (py : urllib) (p : url_policy) (tag prop : str) (r : url_rule) (raw : str) : outcome :=
  sanitize_url_value py r raw tag (u "style:" ++ prop)%list (effective_handling p r) (effective_allow_relative p r) (effective_proxy p r) (url_filter p).
Inductive good (py : urllib) (p : option url_policy) (tag prop decl : str) : str -> Prop :=
| good_raw v : infix v decl -> disallowed_functions v false = false -> good py p tag prop decl v
| good_url pol r v0 v : p = Some pol -> lookup_css_rule pol tag prop = Some r -> infix v0 decl -> disallowed_functions v0 true = false ->
    contains (u "/*") v0 = false -> mem 92 v0 = false ->
    url_functions_go (the_san py pol tag prop r) v0 (lower v0) (S (List.length (lower v0))) 0 [] false = Keep v -> good py p tag prop decl v.
Lemma strip_infix p s : infix (strip_by p s) s.
Proof. destruct (strip_split p s) as (a & b & E & _). exists a, b. exact E. Qed.
Lemma skipn_infix n (s : str) : infix (skipn n s) s.
Proof. exists (firstn n s), []. rewrite app_nil_r. symmetry; apply firstn_skipn. Qed.
Lemma declaration_shape py allowed p tag decl s : sanitize_declaration py allowed p tag decl = Keep s ->
  exists prop v, s = (prop ++ u ": " ++ v)%list /\ valid_property_name prop = true /\ In prop allowed /\ good py p tag prop decl v.
Proof.
  unfold sanitize_declaration. destruct (find_char 58 (strip decl)) as [[|colon]|]; try discriminate.
  set (prop := lower (strip (firstn (S colon) (strip decl)))). set (pv := strip (skipn (S colon + 1) (strip decl))).
  destruct (valid_property_name prop) eqn:E1; [|discriminate]. cbn [negb].
  destruct (in_strs prop allowed) eqn:E2; [|discriminate]. cbn [negb]. apply in_strs_In in E2.
  assert (Hi : infix pv decl).
  { apply (infix_trans _ (strip decl)); [|apply strip_infix]. apply (infix_trans _ (skipn (S colon + 1) (strip decl))); [apply strip_infix|apply skipn_infix]. }
  clearbody pv prop.
  assert (M : (if in_strs (lower pv) ambient_values then Drop
    else if disallowed_functions pv false then
       match p with
       | Some p => if disallowed_functions pv true then Drop else
           match sanitize_css_url_functions py p tag prop pv with Keep v => Keep (prop ++ u ": " ++ v)%list | x => x end
       | None => Drop end else Keep (prop ++ u ": " ++ pv)%list) = Keep s ->
    exists prop v, s = (prop ++ u ": " ++ v)%list /\ valid_property_name prop = true /\ In prop allowed /\ good py p tag prop decl v).
  2: { destruct pv; [discriminate|]. exact M. }
  destruct (in_strs (lower pv) ambient_values); [discriminate|].
  destruct (disallowed_functions pv false) eqn:E3.
  - destruct p as [p|]; [|discriminate]. destruct (disallowed_functions pv true) eqn:E4; [discriminate|].
    destruct (sanitize_css_url_functions py p tag prop pv) as [|v|] eqn:E5; try discriminate.
    intros H. exists prop, v. repeat split; auto; [congruence|].
    unfold sanitize_css_url_functions in E5. destruct (lookup_css_rule p tag prop) as [r|] eqn:E6; [|discriminate E5].
    unfold sanitize_url_function_value in E5. destruct (mem 92 pv) eqn:E7; [discriminate E5|].
    destruct (contains (u "/*") pv) eqn:E8; [discriminate E5|].
    apply (good_url py (Some p) tag prop decl p r pv v); auto.
  - intros H. exists prop, pv. repeat split; auto; [congruence|]. apply good_raw; assumption.
Qed.

(* characters of a rewritten value *)
Definition plain_url (s : str) : Prop := existsb needs_escaping s = false.
Lemma plain_url_char s c : plain_url s -> In c s -> 32 < c /\ c <> 127 /\ c <> 39 /\ c <> 34 /\ c <> 40 /\ c <> 41 /\ c <> 92.
Proof.
  intros H Hc. assert (needs_escaping c = false).
  { destruct (needs_escaping c) eqn:E; [|reflexivity]. assert (existsb needs_escaping s = true) by (apply existsb_exists; exists c; auto). unfold plain_url in H; congruence. }
  unfold needs_escaping, mem in H0. cbn [existsb] in H0. lia.
Qed.
Lemma slice_In (s : str) i j c : In c (slice s i j) -> In c s.
Proof. unfold slice. intros H. apply (infix_In _ _ _ (skipn_infix i s)). rewrite <- (firstn_skipn (j - i) (skipn i s)). apply in_or_app; left; exact H. Qed.
Lemma url_argument_incl v k raw e : url_argument v k = Some (raw, e) -> incl raw v.
Proof.
  unfold url_argument. destruct (nth_error v (skip_low v k)) as [q|]; [|discriminate]. destruct ((q =? 34) || (q =? 39)).
  - destruct (find_from [q] v (skip_low v k + 1)) as [e0|]; [|discriminate]. destruct (nth_error v (skip_low v (e0 + 1))) as [c|]; [|discriminate].
    destruct (c =? 41); [|discriminate]. intros H c' Hc'. assert (raw = slice v (skip_low v k + 1) e0) as -> by congruence. exact (slice_In _ _ _ _ Hc').
  - destruct (find_from [41] v (skip_low v k)) as [e0|]; [|discriminate].
    assert (Hi : incl (strip (slice v (skip_low v k) e0)) v) by (intros c Hc; apply (slice_In v (skip_low v k) e0); exact (strip_incl _ _ _ Hc)).
    destruct (strip (slice v (skip_low v k) e0)) as [|c0 r0]; [discriminate|]. destruct (existsb _ _); [discriminate|].
    intros H. assert (raw = c0 :: r0) as -> by congruence. exact Hi.
Qed.
Lemma url_functions_chars san v low k : forall i out rep w, url_functions_go san v low k i out rep = Keep w -> forall c, In c w ->
  In c out \/ In c v \/ In c (u "url('')") \/ (exists raw s, san raw = Keep s /\ incl raw v /\ plain_url s /\ In c s).
Proof.
  induction k as [|k IH]; intros i out rep w; cbn [url_functions_go]; [discriminate|].
  destruct (find_from (u "url(") low i) as [j|].
  - destruct (url_argument v (j + 4)) as [[raw close]|] eqn:Ea; [|discriminate]. destruct (negb (boundary_ok v (close + 1))); [discriminate|].
    pose proof (url_argument_incl _ _ _ _ Ea) as Hraw.
    destruct (san raw) as [|s|] eqn:Es; try discriminate. destruct (existsb needs_escaping s) eqn:En; [discriminate|].
    intros H c Hc. destruct (IH _ _ _ _ H c Hc) as [H1|H1]; [|right; exact H1].
    apply in_app_or in H1. destruct H1 as [H1|H1]; [left; exact H1|]. apply in_app_or in H1. destruct H1 as [H1|H1]; [right; left; exact (slice_In _ _ _ _ H1)|].
    right; right. unfold url_call in H1. apply in_app_or in H1. destruct H1 as [H1|H1].
    { left. revert H1. cbn. tauto. }
    apply in_app_or in H1. destruct H1 as [H1|H1]; [right; exists raw, s; auto|left; revert H1; cbn; tauto].
  - destruct rep; [|discriminate]. intros H c Hc. assert (w = (out ++ skipn i v)%list) as -> by congruence.
    apply in_app_or in Hc. destruct Hc as [Hc|Hc]; [left; exact Hc|right; left; exact (infix_In _ _ _ (skipn_infix i v) Hc)].
Qed.
Lemma good_chars py p tag prop decl v : good py p tag prop decl v -> forall c, In c v ->
  c <> 92 /\ (In c decl \/ In c (u "url('')") \/
    exists pol r raw s, p = Some pol /\ lookup_css_rule pol tag prop = Some r /\ the_san py pol tag prop r raw = Keep s /\ incl raw decl /\ In c s).
Proof.
  intros [v' Hi Hd|pol r v0 v' Ep El Hi Hd Hc0 Hb Hu] c Hc.
  - split; [|left; exact (infix_In _ _ _ Hi Hc)]. unfold disallowed_functions in Hd. destruct (mem 92 v') eqn:E; [discriminate Hd|].
    apply mem_false_In in E. intros ->. contradiction.
  - destruct (url_functions_chars _ _ _ _ _ _ _ _ Hu c Hc) as [[]|[H|[H|(raw & s & H1 & Hr & H2 & H3)]]].
    + split; [|left; exact (infix_In _ _ _ Hi H)]. apply mem_false_In in Hb. intros ->. contradiction.
    + split; [|right; left; exact H]. intros ->. revert H. cbn. lia.
    + split; [exact (proj2 (proj2 (proj2 (proj2 (proj2 (proj2 (plain_url_char _ _ H2 H3)))))))|].
      right; right. exists pol, r, raw, s. repeat split; auto. intros c' Hc'. exact (infix_In _ _ _ Hi (Hr c' Hc')).
Qed.

(* ---- the whole output ---- *)
Inductive parts (py : urllib) (allowed : list str) (p : option url_policy) (tag value : str) : list str -> Prop :=
| parts_nil : parts py allowed p tag value []
| parts_cons decl prop v l : In decl (split_char 59 value) -> valid_property_name prop = true -> In prop allowed ->
    good py p tag prop decl v -> parts py allowed p tag value l -> parts py allowed p tag value ((prop ++ u ": " ++ v)%list :: l).
Lemma style_parts py allowed value tag p out : sanitize_inline_style py allowed value tag p = Keep out ->
  exists l, out = join (u "; ") l /\ l <> [] /\ parts py allowed p (lower tag) value l.
Proof.
  unfold sanitize_inline_style. intros H.
  assert (H' : match sanitize_declarations py allowed p (lower tag) (split_char 59 value) with None => Err | Some [] => Drop | Some l => Keep (join (u "; ") l) end = Keep out).
  { destruct allowed; [discriminate H|]. destruct value; [discriminate H|]. exact H. } clear H.
  assert (G : forall ds l, incl ds (split_char 59 value) -> sanitize_declarations py allowed p (lower tag) ds = Some l -> parts py allowed p (lower tag) value l).
  { induction ds as [|d ds IH]; intros l Hi; cbn [sanitize_declarations].
    - intros E; assert (l = []) as -> by congruence. apply parts_nil.
    - destruct (sanitize_declaration py allowed p (lower tag) d) as [|s|] eqn:Ed; [|
        |discriminate].
      + apply IH. intros x Hx. apply Hi; right; exact Hx.
      + destruct (sanitize_declarations py allowed p (lower tag) ds) as [l'|] eqn:E; [|discriminate]. cbn. intros El.
        assert (l = s :: l') as -> by congruence. destruct (declaration_shape _ _ _ _ _ _ Ed) as (prop & v & -> & H1 & H2 & H3).
        apply (parts_cons py allowed p (lower tag) value d); auto; [apply Hi; left; reflexivity|]. apply IH; [intros x Hx; apply Hi; right; exact Hx|reflexivity]. }
  destruct (sanitize_declarations py allowed p (lower tag) (split_char 59 value)) as [l|] eqn:E; [|discriminate H'].
  exists l. destruct l; [discriminate H'|]. split; [congruence|]. split; [discriminate|]. apply (G (split_char 59 value)); [apply incl_refl|exact E].
Qed.
Lemma valid_name_chars prop : valid_property_name prop = true -> prop <> [] /\ forallb valid_property_char prop = true.
Proof. destruct prop; [discriminate|]. intros H; split; [discriminate|exact H]. Qed.
Lemma valid_char_not prop c : valid_property_name prop = true -> valid_property_char c = false -> ~ In c prop.
Proof. intros H Hc Hin. apply valid_name_chars in H. destruct H as [_ H]. rewrite forallb_forall in H. rewrite (H c Hin) in Hc; discriminate Hc. Qed.
Lemma join_In sep l c : In c (join sep l) -> In c sep \/ exists w, In w l /\ In c w.
Proof.
  induction l as [|w l IH]; [intros []|]. destruct l as [|w' l]; [intros H; right; exists w; split; [left; reflexivity|exact H]|].
  change (join sep (w :: w' :: l)) with (w ++ sep ++ join sep (w' :: l))%list. intros H. apply in_app_or in H. destruct H as [H|H]; [right; exists w; split; [left; reflexivity|exact H]|].
  apply in_app_or in H. destruct H as [H|H]; [left; exact H|]. destruct (IH H) as [H1|(x & H1 & H2)]; [left; exact H1|right; exists x; split; [right; exact H1|exact H2]].
Qed.
Lemma parts_In py allowed p tag value l w : parts py allowed p tag value l -> In w l ->
  exists decl prop v, w = (prop ++ u ": " ++ v)%list /\ In decl (split_char 59 value) /\ valid_property_name prop = true /\ In prop allowed /\ good py p tag prop decl v.
Proof. intros H. induction H as [|decl prop v l H1 H2 H3 H4 H5 IH]; [intros []|]. intros [<-|H]; [exists decl, prop, v; auto|exact (IH H)]. Qed.
Lemma output_no_backslash py allowed value tag p out : sanitize_inline_style py allowed value tag p = Keep out -> ~ In 92 out.
Proof.
  intros H Hin. destruct (style_parts _ _ _ _ _ _ H) as (l & -> & _ & Hp). apply join_In in Hin. destruct Hin as [Hin|(w & Hw & Hin)]; [revert Hin; cbn; lia|].
  destruct (parts_In _ _ _ _ _ _ _ Hp Hw) as (decl & prop & v & -> & _ & Hv & _ & Hg).
  apply in_app_or in Hin. destruct Hin as [Hin|Hin]; [exact (valid_char_not _ 92 Hv eq_refl Hin)|].
  apply in_app_or in Hin. destruct Hin as [Hin|Hin]; [revert Hin; cbn; lia|]. destruct (good_chars _ _ _ _ _ _ Hg 92 Hin) as [Hne _]. apply Hne; reflexivity.
Qed.

(* ---- names of the declarations ---- *)
Lemma valid_ident_char c : valid_property_char c = true -> ident_char c = true.
Proof. unfold valid_property_char, ident_char, ident_start, is_alpha_ascii. intros H. apply orb_true_iff in H. destruct H as [H|H]; [|rewrite H, orb_true_r; reflexivity].
  apply orb_true_iff in H. destruct H as [H|H]; [rewrite H, orb_true_r; reflexivity|rewrite H, orb_true_r; reflexivity]. Qed.
Lemma take_while_stop p x c t : forallb p x = true -> p c = false -> take_while p (x ++ c :: t)%list = x /\ drop_while p (x ++ c :: t)%list = c :: t.
Proof.
  intros H Hc. induction x as [|d x IH]; cbn [app take_while drop_while]; [rewrite Hc; auto|]. cbn [forallb] in H. apply andb_prop in H; destruct H as [Hd H].
  rewrite Hd. destruct (IH H) as [-> ->]. auto.
Qed.
Lemma valid_alow prop : forallb valid_property_char prop = true -> alow prop = prop.
Proof.
  induction prop as [|c prop IH]; [reflexivity|]. cbn [forallb alow map]. intros H; apply andb_prop in H; destruct H as [Hc H]. unfold alow in IH. rewrite (IH H). f_equal.
  unfold alow_c, is_upper_ascii. destruct ((65 <=? c) && (c <=? 90)) eqn:E; [|reflexivity]. unfold valid_property_char, is_lower_ascii, is_digit_ascii in Hc. lia.
Qed.
Lemma decl_here_part prop rest : valid_property_name prop = true -> ~ In 92 (prop ++ 58 :: rest)%list ->
  forall n, In n (decl_here (css_tokens (prop ++ 58 :: rest)%list)) -> n = prop.
Proof.
  intros Hv Hb n. destruct (valid_name_chars _ Hv) as [Hne Hch].
  assert (Hid : forallb ident_char prop = true) by exact (forallb_impl _ _ _ valid_ident_char Hch).
  destruct (take_while_stop ident_char prop 58 rest Hid eq_refl) as [Et Ed].
  destruct (prop ++ 58 :: rest)%list as [|c t] eqn:E; [destruct prop; discriminate E|].
  destruct (consume_token c t) as [o r] eqn:Ec. rewrite (css_tokens_step _ _ _ _ Hb Ec). pose proof (consume_token_step _ _ _ _ Hb Ec) as St.
  assert (Hc : valid_property_char c = true).
  { destruct prop as [|c' prop]; [contradiction|]. cbn in E. assert (c' = c) as -> by congruence. cbn [forallb] in Hch. apply andb_prop in Hch; apply Hch. }
  unfold valid_property_char, is_lower_ascii, is_digit_ascii in Hc.
  assert (Hc' : c = 45 \/ 48 <= c <= 57 \/ 97 <= c <= 122) by lia. clear Hc.
  assert (Done : forall tk : ctok, (forall m, tk <> CIdent m) -> tk <> CWs -> In n (decl_here (tk :: css_tokens r)) -> n = prop).
  { intros tk H1 H2. unfold decl_here. destruct tk; cbn [skip_ws_tok]; try (intros []); [contradiction H2; reflexivity|exfalso; exact (H1 _ eq_refl)]. }
  inversion St as [Hs|Hw|tk r' Hq|Hw Hn|n' r' Hw E1 E2 E3|tk n' t' r' E0 E1 E2 E3|H|H|tk r' Ha Hm Hk|H|H|H|H|H]; subst o.
  - apply starts_spec in Hs. destruct Hs as [x Hx]. cbn in Hx. assert (c = 47) by congruence. lia.
  - unfold css_ws, css_newline in Hw. lia.
  - exfalso; lia.
  - unfold decl_here. cbn [skip_ws_tok]. subst r. rewrite Et. intros Hin.
    destruct (skip_ws_tok (css_tokens (drop_while ident_char (c :: t)))) as [|k1 k2]; [destruct Hin|]. destruct k1; try destruct Hin as [].
    + rewrite (valid_alow _ Hch) in H. symmetry; exact H.
    + destruct H.
  - apply Done; discriminate.
  - apply Done; destruct tk; try contradiction; discriminate.
  - exfalso; lia.
  - exfalso; lia.
  - apply Done; destruct tk; try contradiction; discriminate.
  - exfalso; lia.
  - exfalso; lia.
  - apply (Done CCdc); discriminate.
  - apply (Done CCdo); discriminate.
  - apply (Done (CDelim c)); discriminate.
Qed.
Lemma decl_here_space s : ~ In 92 s -> (forall c t, s = c :: t -> css_ws c = false) -> decl_here (css_tokens (32 :: s)) = decl_here (css_tokens s).
Proof.
  intros Hb Hs. assert (Ec : consume_token 32 s = (Some CWs, s)).
  { unfold consume_token. replace (starts (u "/*") (32 :: s)) with false by reflexivity. replace (css_ws 32) with true by reflexivity. cbv iota.
    rewrite drop_while_id; [reflexivity|exact Hs]. }
  rewrite (css_tokens_step 32 s (Some CWs) s); [reflexivity| |exact Ec]. intros [H|H]; [discriminate H|contradiction].
Qed.
Lemma parts_first py allowed p tag value l : parts py allowed p tag value l -> l <> [] ->
  exists prop rest, join (u "; ") l = (prop ++ 58 :: rest)%list /\ valid_property_name prop = true /\ In prop allowed.
Proof.
  intros H Hl. destruct H as [|decl prop v l H1 H2 H3 H4 H5]; [contradiction|]. exists prop.
  destruct l as [|w l].
  - exists (32 :: v). split; [reflexivity|auto].
  - exists (32 :: v ++ u "; " ++ join (u "; ") (w :: l))%list. split; [|auto].
    change (join (u "; ") ((prop ++ u ": " ++ v)%list :: w :: l)) with ((prop ++ u ": " ++ v) ++ u "; " ++ join (u "; ") (w :: l))%list.
    rewrite <- !app_assoc. reflexivity.
Qed.
Lemma decl_here_ok py allowed p tag value l n : parts py allowed p tag value l -> l <> [] -> ~ In 92 (join (u "; ") l) ->
  In n (decl_here (css_tokens (join (u "; ") l))) -> In n allowed.
Proof.
  intros H Hl Hb Hn. destruct (parts_first _ _ _ _ _ _ H Hl) as (prop & rest & E & Hv & Ha). rewrite E in *. rewrite (decl_here_part prop rest Hv Hb n Hn). exact Ha.
Qed.
(* a semicolon of the output is a separator *)
Lemma semicolon_is_separator py allowed p tag value l : parts py allowed p tag value l -> (forall w, In w l -> ~ In 59 w) ->
  forall a r, join (u "; ") l = (a ++ 59 :: r)%list -> exists l', r = 32 :: join (u "; ") l' /\ l' <> [] /\ parts py allowed p tag value l'.
Proof.
  intros H. induction H as [|decl prop v l H1 H2 H3 H4 H5 IH]; intros Hs a r E; [destruct a; discriminate E|].
  set (w := (prop ++ u ": " ++ v)%list) in *. assert (Hw : ~ In 59 w) by (apply Hs; left; reflexivity). clearbody w.
  destruct l as [|w' l].
  - exfalso. apply Hw. cbn in E. rewrite E. apply in_or_app; right; left; reflexivity.
  - change (join (u "; ") (w :: w' :: l)) with (w ++ 59 :: 32 :: join (u "; ") (w' :: l))%list in E.
    apply app_eq_app in E. destruct E as (x & [[E1 E2]|[E1 E2]]).
    + destruct x as [|y x].
      * cbn [app] in E2. assert (r = 32 :: join (u "; ") (w' :: l)) as -> by congruence. exists (w' :: l). split; [reflexivity|]. split; [discriminate|exact H5].
      * exfalso. cbn [app] in E2. apply Hw. rewrite E1. apply in_or_app; right. left. congruence.
    + destruct x as [|y x].
      * cbn [app] in E2. assert (r = 32 :: join (u "; ") (w' :: l)) as -> by congruence. exists (w' :: l). split; [reflexivity|]. split; [discriminate|exact H5].
      * cbn [app] in E2. destruct x as [|y2 x].
        { cbn [app] in E2. exfalso. congruence. }
        cbn [app] in E2. apply (IH (fun w0 Hin => Hs w0 (or_intror Hin)) x r). congruence.
Qed.
Lemma decls_after_In l n : In n (decls_after l) -> exists pre post, l = (pre ++ CSemi :: post)%list /\ In n (decl_here post).
Proof.
  induction l as [|tk l IH]; [intros []|]. intros H.
  assert (D : (tk = CSemi /\ In n (decl_here l)) \/ In n (decls_after l)).
  { destruct tk; cbn [decls_after] in H; auto. apply in_app_or in H. destruct H as [H|H]; auto. }
  destruct D as [[-> D]|D]; [exists [], l; auto|]. destruct (IH D) as (pre & post & -> & Hp). exists (tk :: pre), post; auto.
Qed.
Lemma step_semi c t r : ~ In 92 t -> step c t (Some CSemi) r -> c = 59 /\ r = t.
Proof.
  intros Hb H. inversion H as [ | |tk r' Hq Hc| | |tk n' t' r' E0| | |tk r' Ha Hm Hk| | | | | ]; subst; auto; try contradiction.
  exfalso. pose proof (consume_string_kind (S (List.length t)) c t Hb) as K. rewrite Hc in K. exact K.
Qed.
Lemma names_allowed py allowed value tag p out :
  (forall pol prop r raw s, p = Some pol -> lookup_css_rule pol (lower tag) prop = Some r -> the_san py pol (lower tag) prop r raw = Keep s -> ~ In 59 raw -> ~ In 59 s) ->
  sanitize_inline_style py allowed value tag p = Keep out -> forall n, In n (declared out) -> In n allowed.
Proof.
  intros Hsan H n Hn. pose proof (output_no_backslash _ _ _ _ _ _ H) as Hb. destruct (style_parts _ _ _ _ _ _ H) as (l & -> & Hl & Hp).
  assert (Hs : forall w, In w l -> ~ In 59 w).
  { intros w Hw Hin. destruct (parts_In _ _ _ _ _ _ _ Hp Hw) as (decl & prop & v & -> & Hd & Hv & _ & Hg).
    assert (Hd59 : ~ In 59 decl) by exact (split_char_no 59 value decl Hd).
    apply in_app_or in Hin. destruct Hin as [Hin|Hin]; [exact (valid_char_not _ 59 Hv eq_refl Hin)|].
    apply in_app_or in Hin. destruct Hin as [Hin|Hin]; [revert Hin; cbn; lia|].
    destruct (good_chars _ _ _ _ _ _ Hg 59 Hin) as [_ [Hc|[Hc|(pol & r & raw & s & E1 & E2 & E3 & E4 & E5)]]]; [contradiction|revert Hc; cbn; lia|].
    apply (Hsan pol prop r raw s E1 E2 E3); [|exact E5]. intros Hr. exact (Hd59 (E4 59 Hr)). }
  unfold declared in Hn. apply in_app_or in Hn. destruct Hn as [Hn|Hn]; [exact (decl_here_ok _ _ _ _ _ _ _ Hp Hl Hb Hn)|].
  apply decls_after_In in Hn. destruct Hn as (pre & post & E & Hn). destruct (token_origin _ _ _ _ Hb E) as (c & t & r & _ & St & -> & Hsuf).
  assert (Hct : ~ In 92 (c :: t)) by exact (suffix_In _ _ _ Hsuf Hb).
  apply step_semi in St; [|intros Ht; apply Hct; right; exact Ht]. destruct St as [-> ->]. destruct Hsuf as [a Ea].
  destruct (semicolon_is_separator _ _ _ _ _ _ Hp Hs a t Ea) as (l' & -> & Hl' & Hp').
  assert (Hb' : ~ In 92 (join (u "; ") l')) by (intros Hin; apply Hct; right; right; exact Hin).
  rewrite decl_here_space in Hn; [exact (decl_here_ok _ _ _ _ _ _ _ Hp' Hl' Hb' Hn)|exact Hb'|].
  intros c t Ec. destruct (parts_first _ _ _ _ _ _ Hp' Hl') as (prop & rest & E' & Hv & _). rewrite E' in Ec. destruct (valid_name_chars _ Hv) as [Hne Hch].
  destruct prop as [|c' prop]; [contradiction|]. cbn in Ec. assert (c' = c) as -> by congruence. cbn [forallb] in Hch. apply andb_prop in Hch. destruct Hch as [Hc _].
  unfold valid_property_char, is_lower_ascii, is_digit_ascii in Hc. unfold css_ws, css_newline. lia.
Qed.
