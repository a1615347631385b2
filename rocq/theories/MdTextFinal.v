(* C45: text nodes, as words *)
From Coq Require Import Lia ZifyBool ZifyN ZifyNat.
From Verif Require Import Str StrFacts SerializerModel MiscSpec MdModel MdSpec MdProofs MdPre MdText.
From Verif Require CharRefFacts.
Open Scope list_scope. Open Scope N_scope.

Lemma html_space_same c : html_space c = is_html_space c.
Proof. unfold html_space, is_html_space. first [reflexivity|unfold mem; cbn [existsb]; destruct (c =? 9), (c =? 10), (c =? 12), (c =? 13), (c =? 32); reflexivity]. Qed.
Lemma shown_spaces a s f : all_space a -> a <> [] -> shown f (a ++ s) = shown true s.
Proof. revert f. induction a as [|c a IH]; intros f H Hn; [congruence|]. cbn [app shown]. rewrite html_space_same, (H c (or_introl eq_refl)). destruct a as [|c' a]; [reflexivity|]. apply IH; [intros x I; apply H; right; exact I|discriminate]. Qed.
Lemma shown_all a f : all_space a -> shown f a = [].
Proof. intros H. destruct a as [|c a]; [reflexivity|]. rewrite <- (app_nil_r (c :: a)), shown_spaces; [reflexivity|exact H|discriminate]. Qed.
Lemma no_space_solid w : no_space w -> forallb solid w = true.
Proof. intros H. apply forallb_forall. intros c I. unfold solid. rewrite html_space_same, (H c I). reflexivity. Qed.
Definition spaced_words (ws : list str) : str := flat_map (fun w => 32 :: w) ws.
Lemma shown_words s ws : words s ws -> shown true s = spaced_words ws /\ (match s with [] => True | c :: _ => is_html_space c = true end -> shown false s = spaced_words ws).
Proof.
  induction 1 as [s Hs|a w s ws Ha Hw Nw Hs H [IH1 IH2]].
  - split; [apply shown_all; exact Hs|intros _; apply shown_all; exact Hs].
  - assert (T : shown true (w ++ s) = 32 :: w ++ spaced_words ws).
    { destruct w as [|c w]; [congruence|]. cbn [app shown]. rewrite html_space_same, (Nw c (or_introl eq_refl)). cbn [spc app]. rewrite shown_app, IH2; [reflexivity|exact Hs|apply no_space_solid; intros x I; apply Nw; right; exact I]. }
    destruct a as [|c a].
    + cbn [app]. split; [exact T|]. destruct w as [|c w]; [congruence|]. cbn [app]. rewrite (Nw c (or_introl eq_refl)). discriminate.
    + split; [|intros _]; rewrite shown_spaces; try exact T; try exact Ha; discriminate.
Qed.
Lemma drop_spaces a s : all_space a -> drop_while html_space (a ++ s) = drop_while html_space s.
Proof. induction a as [|c a IH]; intros H; [reflexivity|]. cbn [app drop_while]. rewrite html_space_same, (H c (or_introl eq_refl)). apply IH. intros x I. apply H. right. exact I. Qed.
Lemma join_spaced w ws : join [32] (w :: ws) = w ++ spaced_words ws.
Proof. revert w. induction ws as [|x ws IH]; intros w; [symmetry; apply app_nil_r|]. change (join [32] (w :: x :: ws)) with (w ++ [32] ++ join [32] (x :: ws)). rewrite IH. reflexivity. Qed.
Lemma shown_text s ws : words s ws -> shown false (drop_while html_space s) = join [32] ws.
Proof.
  intros H. destruct H as [s Hs|a w s ws Ha Hw Nw Hs H].
  - rewrite <- (app_nil_r s), drop_spaces by exact Hs. reflexivity.
  - rewrite drop_spaces by exact Ha. destruct w as [|c w]; [congruence|]. cbn [app drop_while]. rewrite html_space_same, (Nw c (or_introl eq_refl)). change (c :: w ++ s) with ((c :: w) ++ s). rewrite shown_app by (apply no_space_solid; exact Nw). rewrite (proj2 (shown_words _ _ H) Hs). symmetry. apply join_spaced.
Qed.
(* blanks at the ends of a source are blanks at the ends of the text *)
Definition blank3 (c : N) : bool := mem c [32; 9; 10].
Lemma displays_first o t c s : displays o t -> o = c :: s -> blank3 c = true -> exists t', t = c :: t'.
Proof. intros H E B. destruct H; try discriminate E; try (injection E as <- _; first [eexists; reflexivity|discriminate B]). Qed.
Lemma displays_last o t : displays o t -> forall c s, o = s ++ [c] -> blank3 c = true -> exists t', t = t' ++ [c].
Proof.
  assert (L : forall (x : str) o c s, x ++ o = s ++ [c] -> o <> [] -> exists s', o = s' ++ [c]).
  { intros x o0 c s E Ho. destruct (snoc_of o0 Ho) as (h & y & ->). rewrite app_assoc in E. apply app_inj_tail in E as [_ <-]. exists h. reflexivity. }
  assert (G : forall x y o t c s, x ++ o = s ++ [c] -> blank3 c = true -> displays o t -> (forall c s, o = s ++ [c] -> blank3 c = true -> exists t', t = t' ++ [c]) -> (o = [] -> forall z, x <> z ++ [c]) -> exists t', y :: t = t' ++ [c]).
  { intros x y o0 t0 c s E B D IH Hx. destruct o0 as [|o1 o2]; [rewrite app_nil_r in E; destruct (Hx eq_refl _ E)|]. destruct (L x (o1 :: o2) c s E ltac:(discriminate)) as (s' & E'). destruct (IH c s' E' B) as (t' & ->). exists (y :: t'). reflexivity. }
  induction 1 as [|a s t Na D IH|a s t Na D IH|s t D IH|s t D IH]; intros c s' E B.
  - destruct s'; discriminate E.
  - destruct s as [|s0 s1]; [inversion D; subst|].
    + destruct s' as [|x s']; [injection E as ->; exists []; reflexivity|injection E as _ E; destruct s'; discriminate E].
    + apply (G [a] a (s0 :: s1) t c s' E B D IH). discriminate.
  - apply (G [92; a] a s t c s' E B D IH). intros _ z K. change [92; a] with ([92] ++ [a]) in K. apply app_inj_tail in K as [_ <-]. unfold blank3 in B. apply StrFacts.mem_In in B. cbn in B. repeat (destruct B as [<-|B]; [discriminate Na|]). destruct B.
  - apply (G (u "&amp;") 38 s t c s' E B D IH). intros _ z K. change (u "&amp;") with (u "&amp" ++ [59]) in K. apply app_inj_tail in K as [_ <-]. discriminate B.
  - apply (G (u "&lt;") 60 s t c s' E B D IH). intros _ z K. change (u "&lt;") with (u "&lt" ++ [59]) in K. apply app_inj_tail in K as [_ <-]. discriminate B.
Qed.
Lemma words_solid s ws : words s ws -> forall w, In w ws -> w <> [] /\ no_space w.
Proof. induction 1 as [|a w s ws Ha Hw Nw Hs H IH]; intros x I; [destruct I|]. destruct I as [<-|I]; [split; assumption|apply IH; exact I]. Qed.
Lemma blank_space c : blank3 c = true -> is_html_space c = true.
Proof. intros H. apply StrFacts.mem_In in H. cbn in H. repeat (destruct H as [<-|H]; [reflexivity|]). destruct H. Qed.
Lemma text_output p d ws : words d ws -> exists out, to_markdown p (NText d) = Some out /\ displays out (join [32] ws).
Proof.
  intros H. destruct (text_adds d (new_builder 0)) as (sp & o & b' & K1 & K2 & K3 & _ & _ & K6). rewrite (K6 eq_refl eq_refl) in K2. cbn [spc app] in K2. rewrite (shown_text d ws H) in K3. exists o. split; [|exact K3]. unfold to_markdown. cbn [walk]. rewrite K1. cbn [option_map]. f_equal. unfold finish. change (List.concat (rev (buf b'))) with (content b'). rewrite K2. cbn [content new_builder buf rev List.concat app].
  pose proof (words_solid _ _ H) as OK. change (fun c => mem c [32; 9; 10]) with blank3. apply strip_by_id.
  - intros c t ->. destruct (blank3 c) eqn:B; [|reflexivity]. destruct (displays_first _ _ c t K3 eq_refl B) as (t' & E). destruct ws as [|w ws]; [discriminate E|]. rewrite join_spaced in E. destruct (OK w (or_introl eq_refl)) as [O1 O2]. destruct w as [|c' w]; [congruence|]. injection E as -> _. pose proof (O2 c (or_introl eq_refl)) as O3. rewrite (blank_space c B) in O3. discriminate O3.
  - intros c t ->. destruct (blank3 c) eqn:B; [|reflexivity]. destruct (displays_last _ _ K3 c t eq_refl B) as (t' & E). exfalso. destruct ws as [|w ws] using rev_ind; [destruct t'; discriminate E|]. destruct (OK w ltac:(apply in_or_app; right; left; reflexivity)) as [O1 O2]. destruct (snoc_of w O1) as (h & y & ->).
    assert (J : exists z, join [32] (ws ++ [h ++ [y]]) = z ++ [y]).
    { clear. induction ws as [|x ws IH]; [exists h; reflexivity|]. destruct IH as [z IH]. cbn [app join]. destruct (ws ++ [h ++ [y]]) as [|w0 ws0] eqn:E; [destruct ws; discriminate E|]. rewrite IH. exists (x ++ [32] ++ z). rewrite <- !app_assoc. reflexivity. }
    destruct J as [z J]. pose proof (eq_trans (eq_sym J) E) as E'. clear E. rename E' into E. apply app_inj_tail in E as [_ ->]. pose proof (O2 c ltac:(apply in_or_app; right; left; reflexivity)) as O3. rewrite (blank_space c B) in O3. discriminate O3.
Qed.
(* a text that CommonMark would read as a thematic break or a setext heading underline is escaped at its start *)
Lemma text_go_buf s : forall k b, exists l, buf (text_go k s b) = l ++ buf b.
Proof.
  induction s as [|c s IH]; intros k b; [exists (@nil str); reflexivity|]. cbn [text_go]. destruct k as [|k]; [|apply IH]. destruct (html_space c).
  { destruct (IH O (Builder (quote_depth b) (buf b) (leading_space b || empty_buf b) (newline_count b) true)) as (l & E). exists l. exact E. }
  set (buf1 := if pending_space b && negb (empty_buf b) && (newline_count b =? 0)%nat && negb (last_blank (buf b)) then [32] :: buf b else buf b). assert (B : exists l : list str, buf1 = l ++ buf b) by (unfold buf1; destruct (_ && _); [exists [[32]]|exists (@nil str)]; reflexivity). destruct B as (l1 & B). clearbody buf1.
  assert (G : forall k x, exists l, buf (text_go k s (Builder (quote_depth b) (x :: buf1) (leading_space b) 0 false)) = l ++ buf b).
  { intros k x. destruct (IH k (Builder (quote_depth b) (x :: buf1) (leading_space b) 0 false)) as (l & E). exists (l ++ [x] ++ l1). rewrite E. cbn [buf]. rewrite B, <- !app_assoc. reflexivity. }
  destruct (_ || _); [|apply G]. destruct (escape_line_start (c :: s)) as [[r n]|]; apply G.
Qed.
Lemma rule_text p d marker minimum : In (marker, minimum) [(45, 3%nat); (61, 1%nat)] -> (forall c, In c d -> c = marker \/ c = 32 \/ c = 9) ->
  (minimum <= List.length (filter (N.eqb marker) d))%nat -> exists out, to_markdown p (NText d) = Some (92 :: out).
Proof.
  intros Hm Hd Hc. unfold to_markdown. cbn [walk option_map]. unfold text.
  assert (Ed : escape_text d = d).
  { unfold escape_text. clear Hc. induction d as [|c d IH]; [reflexivity|]. cbn [flat_map]. rewrite IH by (intros x I; apply Hd; right; exact I).
    assert (escape_char c = [c]) as ->; [|reflexivity]. destruct (Hd c (or_introl eq_refl)) as [->|[-> | ->]]; [|reflexivity|reflexivity]. destruct Hm as [Hm|[Hm|[]]]; injection Hm as <- _; reflexivity. }
  rewrite Ed. clear Ed.
  assert (G : forall b, buf b = [] -> newline_count b = O -> exists l, buf (text_go 0 d b) = l ++ [[92; marker]]).
  { induction d as [|c d IH]; intros b Bb Nb; [exfalso; destruct Hm as [Hm|[Hm|[]]]; injection Hm as <- <-; cbn in Hc; lia|].
    cbn [text_go]. destruct (Hd c (or_introl eq_refl)) as [Ec|Ec].
    - subst c. assert (html_space marker = false) as -> by (destruct Hm as [Hm|[Hm|[]]]; injection Hm as <- _; reflexivity).
      assert (Eb : empty_buf b = true) by (unfold empty_buf; rewrite Bb; reflexivity). rewrite Eb. cbn [negb]. rewrite !andb_false_r. cbn [andb]. rewrite Bb. cbn [orb].
      assert (Et : thematic_line (marker :: d) marker minimum = true).
      { unfold thematic_line. assert (St : exists r, marker :: d = rstrip_by sp_tab (marker :: d) ++ r /\ forallb sp_tab r = true).
        { unfold rstrip_by. exists (rev (take_while sp_tab (rev (marker :: d)))). split; [rewrite <- rev_app_distr, <- CharRefFacts.take_drop, rev_involutive; reflexivity|]. apply forallb_forall. intros x I. apply in_rev in I. exact (proj1 (forallb_forall _ _) (take_while_all _ _) x I). }
        destruct St as (r & E & Hr). set (st := rstrip_by sp_tab (marker :: d)) in *. clearbody st.
        assert (F : forall l, (forall x, In x l -> x = marker \/ x = 32 \/ x = 9) -> filter (fun c => negb (sp_tab c)) l = filter (N.eqb marker) l).
        { clear - Hm. induction l as [|x l IH]; intros H; [reflexivity|]. cbn [filter]. rewrite IH by (intros y I; apply H; right; exact I). destruct (H x (or_introl eq_refl)) as [->|[-> | ->]]; [rewrite N.eqb_refl| |]; destruct Hm as [Hm|[Hm|[]]]; injection Hm as <- _; reflexivity. }
        destruct st as [|s0 st].
        - exfalso. cbn [app] in E. rewrite <- E in Hr. cbn [forallb] in Hr. apply andb_true_iff in Hr as [Hr _]. destruct Hm as [Hm|[Hm|[]]]; injection Hm as <- _; discriminate Hr.
        - assert (Hst : forall x, In x (s0 :: st) -> x = marker \/ x = 32 \/ x = 9) by (intros x I; apply Hd; rewrite E; apply in_or_app; left; exact I).
          apply andb_true_iff. split; [apply forallb_forall; intros x I; destruct (Hst x I) as [->|[-> | ->]]; [rewrite N.eqb_refl, orb_true_r; reflexivity|reflexivity|reflexivity]|].
          rewrite F by exact Hst. rewrite E, filter_app in Hc. apply Nat.leb_le. replace (filter (N.eqb marker) r) with (@nil N) in Hc; [rewrite app_nil_r in Hc; exact Hc|].
          symmetry. clear - Hr Hm. induction r as [|x r IH]; [reflexivity|]. cbn [forallb] in Hr. apply andb_true_iff in Hr as [H1 H2]. cbn [filter]. rewrite (IH H2). destruct (N.eqb_spec marker x) as [<-|]; [|reflexivity]. destruct Hm as [Hm|[Hm|[]]]; injection Hm as <- _; discriminate H1. }
      assert (escape_line_start (marker :: d) = Some ([92; marker], 1%nat)) as ->.
      { destruct Hm as [Hm|[Hm|[]]]; injection Hm as <- <-; cbn [escape_line_start]; rewrite Et; rewrite ?orb_true_r; reflexivity. }
      cbn [Nat.sub]. destruct (text_go_buf d O (Builder (quote_depth b) [[92; marker]] (leading_space b) 0 false)) as (l & E). exists l. exact E.
    - assert (html_space c = true) as -> by (destruct Ec as [-> | ->]; reflexivity). apply IH; [intros x I; apply Hd; right; exact I| |exact Bb|exact Nb].
      cbn [filter] in Hc. destruct (N.eqb_spec marker c) as [<-|]; [|exact Hc]. exfalso. destruct Ec as [-> | ->]; destruct Hm as [Hm|[Hm|[]]]; discriminate Hm. }
  destruct (G (new_builder 0) eq_refl eq_refl) as (l & E). unfold finish. rewrite E. rewrite rev_app_distr. cbn [rev app List.concat]. unfold strip_by, lstrip_by. 
  change (drop_while (fun c => mem c [32; 9; 10]) (92 :: marker :: List.concat (rev l))) with (92 :: marker :: List.concat (rev l)).
  unfold rstrip_by. set (q := drop_while _ _). assert (Q : exists q', rev q = 92 :: q').
  { assert (D : exists a, rev (92 :: marker :: List.concat (rev l)) = a ++ q) by (unfold q; exists (take_while (fun c => mem c [32; 9; 10]) (rev (92 :: marker :: List.concat (rev l)))); apply CharRefFacts.take_drop). destruct D as (a & D).
    assert (Nq : q <> []).
    { unfold q. cbn [rev]. intros K. assert (A : forall c, In c ((rev (List.concat (rev l)) ++ [marker]) ++ [92]) -> mem c [32; 9; 10] = true).
      { intros c I. rewrite (CharRefFacts.take_drop (fun c => mem c [32; 9; 10]) ((rev (List.concat (rev l)) ++ [marker]) ++ [92])) in I. rewrite K, app_nil_r in I. exact (proj1 (forallb_forall _ _) (take_while_all _ _) c I). }
      specialize (A 92 ltac:(apply in_or_app; right; left; reflexivity)). discriminate A. }
    apply (f_equal (@rev N)) in D. rewrite rev_involutive, rev_app_distr in D. destruct (rev q) as [|x q'] eqn:R; [apply (f_equal (@rev N)) in R; rewrite rev_involutive in R; destruct (Nq R)|]. injection D as <- _. exists q'. reflexivity. }
  destruct Q as (q' & ->). exists q'. reflexivity.
Qed.
