(* PROOFS for CollapseWhitespace (C58) *)
From Coq Require Import Lia.
From Verif Require Import ListFacts Str StrFacts SerializerModel SerTreeProofs MiscModel MiscSpec MiscSpaceProofs TextSpec TransModel TransSpec TransProofs TidySpec.
Open Scope list_scope. Open Scope N_scope.

Lemma str_eqb_sym a b : str_eqb a b = str_eqb b a.
Proof. destruct (str_eqb a b) eqn:E; symmetry; [apply str_eqb_eq in E; subst b; apply str_eqb_refl|]. destruct (str_eqb b a) eqn:F; [|reflexivity]. apply str_eqb_eq in F. subst b. rewrite str_eqb_refl in E. discriminate E. Qed.
(* ---------- the words of a stream of characters and boundaries ---------- *)
Definition state := (list (list str) * list str * str)%type.
Definition flush (ws : list str) (acc : str) : list str := match acc with [] => ws | _ => ws ++ [rev acc] end.
Definition step (s : state) (x : option N) : state :=
  let '(ps, ws, acc) := s in
  match x with
  | Some c => if is_html_space c then (ps, flush ws acc, []) else (ps, ws, c :: acc)
  | None => (ps ++ [flush ws acc], [], [])
  end.
Definition run (l : list (option N)) (s : state) : state := fold_left step l s.
Definition final (s : state) : list (list str) := let '(ps, ws, acc) := s in ps ++ [flush ws acc].
Definition stream (l : list item) : list (option N) := flat_map (fun i => match i with Words d => map Some d | Boundary => [None] end) l.
Lemma run_app a b s : run (a ++ b) s = run b (run a s). Proof. apply fold_left_app. Qed.
Lemma stream_app a b : stream (a ++ b) = stream a ++ stream b. Proof. apply flat_map_app. Qed.

Definition wf (s : str) : list str := split_by_go is_html_space [] s.
Lemma words_wf s ws : words s ws <-> ws = wf s.
Proof.
  destruct (words_total (List.length s) s (le_n _)) as (w0 & W). assert (E : wf s = w0) by (apply go_words; [exact W|reflexivity]). split.
  - intros H. rewrite E. exact (words_unique _ _ _ H W).
  - intros ->. rewrite E. exact W.
Qed.
Lemma paragraphs_cons l : exists p ps, paragraphs l = p :: ps.
Proof. destruct l as [|[d|] l]; cbn [paragraphs]; [eexists; eexists; reflexivity| |eexists; eexists; reflexivity]. destruct (paragraphs l); eexists; eexists; reflexivity. Qed.
Lemma run_text d l rest ps : (forall ws acc, final (run l (ps, ws, acc)) = ps ++ (ws ++ split_by_go is_html_space acc (List.concat (hd [] rest))) :: tl (map (fun p => wf (List.concat p)) rest)) ->
  forall ws acc, final (run (map Some d ++ l) (ps, ws, acc)) = ps ++ (ws ++ split_by_go is_html_space acc (d ++ List.concat (hd [] rest))) :: tl (map (fun p => wf (List.concat p)) rest).
Proof.
  intros H. induction d as [|c d IH]; intros ws acc; [exact (H ws acc)|]. cbn [map app]. change (run (Some c :: map Some d ++ l) (ps, ws, acc)) with (run (map Some d ++ l) (step (ps, ws, acc) (Some c))).
  cbn [step split_by_go]. destruct (is_html_space c).
  - rewrite IH. f_equal. f_equal. unfold flush. destruct acc; [reflexivity|]. rewrite <- app_assoc. reflexivity.
  - rewrite IH. reflexivity.
Qed.
Lemma run_words items : forall ps ws acc, final (run (stream items) (ps, ws, acc)) =
  ps ++ (ws ++ split_by_go is_html_space acc (List.concat (hd [] (paragraphs items)))) :: tl (map (fun p => wf (List.concat p)) (paragraphs items)).
Proof.
  induction items as [|[d|] items IH]; intros ps ws acc.
  - cbn. unfold flush. destruct acc; [rewrite app_nil_r|]; reflexivity.
  - cbn [stream flat_map]. fold (stream items). rewrite (run_text d (stream items) (paragraphs items) ps (IH ps)). cbn [paragraphs]. destruct (paragraphs_cons items) as (p & q & ->). reflexivity.
  - cbn [stream flat_map app]. fold (stream items). change (run (None :: stream items) (ps, ws, acc)) with (run (stream items) (ps ++ [flush ws acc], [], [])). rewrite IH. cbn [paragraphs hd tl map List.concat app split_by_go].
    destruct (paragraphs_cons items) as (p & q & ->). cbn [hd tl map]. unfold wf at 2. rewrite <- app_assoc. cbn [app]. f_equal. f_equal. unfold flush. destruct acc; [rewrite app_nil_r|]; reflexivity.
Qed.
Lemma run_para items : final (run (stream items) ([], [], [])) = map (fun p => wf (List.concat p)) (paragraphs items).
Proof. rewrite run_words. destruct (paragraphs_cons items) as (p & q & ->). reflexivity. Qed.
Lemma same_words_of a b : (forall s, run (stream a) s = run (stream b) s) -> same_words a b.
Proof.
  intros H. unfold same_words. assert (E : map (fun p => wf (List.concat p)) (paragraphs a) = map (fun p => wf (List.concat p)) (paragraphs b)) by (rewrite <- !run_para, H; reflexivity).
  revert E. generalize (paragraphs b). generalize (paragraphs a). intros l. induction l as [|x l IH]; intros [|y m] E; cbn [map] in E; try discriminate E; constructor.
  - intros ws. rewrite !words_wf. assert (E1 : wf (List.concat x) = wf (List.concat y)) by congruence. rewrite E1. reflexivity.
  - apply IH. congruence.
Qed.

(* ---------- equivalence of streams ---------- *)
Definition eqv (a b : list (option N)) : Prop := forall s, run a s = run b s.
Lemma eqv_refl a : eqv a a. Proof. intros s; reflexivity. Qed.
Lemma eqv_sym a b : eqv a b -> eqv b a. Proof. intros H s; symmetry; apply H. Qed.
Lemma eqv_trans a b c : eqv a b -> eqv b c -> eqv a c. Proof. intros H K s. rewrite H. apply K. Qed.
Lemma eqv_app a b c d : eqv a b -> eqv c d -> eqv (a ++ c) (b ++ d). Proof. intros H K s. rewrite !run_app, H. apply K. Qed.
Lemma eqv_mid a b c d : eqv b d -> eqv (a ++ b ++ c) (a ++ d ++ c). Proof. intros H. apply eqv_app; [apply eqv_refl|]. apply eqv_app; [exact H|apply eqv_refl]. Qed.
Lemma run_space c ps ws : is_html_space c = true -> step (ps, ws, []) (Some c) = (ps, ws, []). Proof. intros H. cbn [step flush]. rewrite H. reflexivity. Qed.
Lemma run_loop s : (forall ps ws, run (map Some (collapse_loop true s)) (ps, ws, []) = run (map Some s) (ps, ws, [])) /\
  (forall st, run (map Some (collapse_loop false s)) st = run (map Some s) st).
Proof.
  induction s as [|c s [IH1 IH2]]; [split; reflexivity|]. cbn [collapse_loop]. destruct (is_html_space c) eqn:E.
  - split.
    + intros ps ws. rewrite IH1. cbn [map]. change (run (Some c :: map Some s) (ps, ws, [])) with (run (map Some s) (step (ps, ws, []) (Some c))). rewrite run_space by exact E. reflexivity.
    + intros [[ps ws] acc]. cbn [map]. change (run (Some c :: map Some s) (ps, ws, acc)) with (run (map Some s) (step (ps, ws, acc) (Some c))).
      change (run (Some 32 :: map Some (collapse_loop true s)) (ps, ws, acc)) with (run (map Some (collapse_loop true s)) (step (ps, ws, acc) (Some 32))).
      cbn [step]. rewrite E. change (is_html_space 32) with true. cbn iota. apply IH1.
  - cbn [map]. split.
    + intros ps ws. exact (IH2 (step (ps, ws, []) (Some c))).
    + intros st. exact (IH2 (step st (Some c))).
Qed.
Lemma eqv_collapse d : eqv (map Some (collapse_spaces d)) (map Some d).
Proof. rewrite collapse_is_loop. intros st. apply run_loop. Qed.
Lemma run_spaces a : forallb is_html_space a = true -> forall ps ws, run (map Some a) (ps, ws, []) = (ps, ws, []).
Proof.
  induction a as [|c a IH]; intros H ps ws; [reflexivity|]. cbn [forallb] in H. apply andb_true_iff in H as [H1 H]. cbn [map].
  change (run (Some c :: map Some a) (ps, ws, [])) with (run (map Some a) (step (ps, ws, []) (Some c))). rewrite run_space by exact H1. apply IH, H.
Qed.
Lemma run_break x l : exists ps ws, run (x ++ [None]) l = (ps, ws, []).
Proof. rewrite run_app. destruct (run x l) as [[ps ws] acc]. eexists. eexists. reflexivity. Qed.
Lemma run_spaced x c l : is_html_space c = true -> exists ps ws, run (x ++ [Some c]) l = (ps, ws, []).
Proof. intros H. rewrite run_app. destruct (run x l) as [[ps ws] acc]. exists ps, (flush ws acc). cbn. rewrite H. reflexivity. Qed.
(* white space after a boundary or white space, and before a boundary, does not count *)
Lemma eqv_after_break x a : forallb is_html_space a = true -> eqv ((x ++ [None]) ++ map Some a) (x ++ [None]).
Proof. intros H s. rewrite run_app. destruct (run_break x s) as (ps & ws & E). rewrite E. apply run_spaces, H. Qed.
Lemma eqv_after_space x c a : is_html_space c = true -> forallb is_html_space a = true -> eqv ((x ++ [Some c]) ++ map Some a) (x ++ [Some c]).
Proof. intros Hc H s. rewrite run_app. destruct (run_spaced x c s Hc) as (ps & ws & E). rewrite E. apply run_spaces, H. Qed.
Lemma eqv_before_break a y : forallb is_html_space a = true -> eqv (map Some a ++ None :: y) (None :: y).
Proof.
  intros H. induction a as [|c a IH]; [apply eqv_refl|]. cbn [forallb] in H. apply andb_true_iff in H as [H1 H]. cbn [map app]. intros [[ps ws] acc].
  change (run (Some c :: map Some a ++ None :: y) (ps, ws, acc)) with (run (map Some a ++ None :: y) (step (ps, ws, acc) (Some c))). rewrite (IH H). cbn [step]. rewrite H1. reflexivity.
Qed.

(* ---------- the walk with one CollapseWhitespace ---------- *)
Section collapse.
Variables (skip : list str) (trim : bool) (blocks : list str).
Inductive cpass : option str -> bool -> list node -> list node -> list node -> Prop :=
| cp_nil p s left : cpass p s left [] []
| cp_same p s left d l o : s = true \/ d = [] -> cpass p s (NText d :: left) l o -> cpass p s left (NText d :: l) (NText d :: o)
| cp_gone p left d l o : d <> [] -> collapsed_text trim blocks p left l d = [] -> cpass p false left l o -> cpass p false left (NText d :: l) o
| cp_text p left d l o : d <> [] -> collapsed_text trim blocks p left l d <> [] -> cpass p false (NText (collapsed_text trim blocks p left l d) :: left) l o ->
    cpass p false left (NText d :: l) (NText (collapsed_text trim blocks p left l d) :: o)
| cp_leaf p s left n l o : (match n with NComment _ | NPI _ | NDoctype _ => True | _ => False end) -> cpass p s (n :: left) l o -> cpass p s left (n :: l) (n :: o)
| cp_doc p s left cs cs' l o : cpass None s [] cs cs' -> cpass p s (NDocument cs' :: left) l o -> cpass p s left (NDocument cs :: l) (NDocument cs' :: o)
| cp_elem p s left name ns attrs cs cs' l o : cpass (Some name) (s || in_strs (lower name) skip) [] cs cs' -> cpass p s (NElem name ns attrs cs' None :: left) l o ->
    cpass p s left (NElem name ns attrs cs None :: l) (NElem name ns attrs cs' None :: o)
| cp_tmpl p s left name ns attrs cs cs' tc tc' l o : cpass (Some name) (s || in_strs (lower name) skip) [] cs cs' -> cpass None (s || in_strs (lower name) skip) [] tc tc' ->
    cpass p s (NElem name ns attrs cs' (Some tc') :: left) l o -> cpass p s left (NElem name ns attrs cs (Some tc) :: l) (NElem name ns attrs cs' (Some tc') :: o).
Notation T := [TCollapse skip trim blocks].
Lemma walk_cpass fuel : forall p s left l out, walk fuel T p s left (map (pair O) l) = Some out -> exists o, out = rev left ++ o /\ cpass p s left l o.
Proof.
  assert (WS : whitespace_skip_tags T = skip) by (cbn; apply app_nil_r).
  induction fuel as [|fuel IH]; intros p s left l out H; destruct l as [|n l]; cbn [map walk] in H; try discriminate H;
    try (injection H as <-; exists []; rewrite app_nil_r; split; [reflexivity|constructor]).
  rewrite TransProofs.map_snd_pair in H.
  assert (K : forall n', walk fuel T p s (n' :: left) (map (pair O) l) = Some out -> exists o, out = rev left ++ n' :: o /\ cpass p s (n' :: left) l o).
  { intros n' H'. destruct (IH _ _ _ _ _ H') as (o & -> & C). exists o. split; [cbn [rev]; rewrite <- app_assoc; reflexivity|exact C]. }
  destruct n as [d|d|d|d|cs|name ns attrs cs tc]; cbn [skipn run_ts] in H.
  - destruct s; [destruct (K _ H) as (o & -> & C); eexists; split; [reflexivity|]; apply cp_same; [left; reflexivity|exact C]|].
    destruct d as [|c d]; [destruct (K _ H) as (o & -> & C); eexists; split; [reflexivity|]; apply cp_same; [right; reflexivity|exact C]|].
    destruct (collapsed_text trim blocks p left l (c :: d)) as [|c' d'] eqn:E.
    + destruct (IH _ _ _ _ _ H) as (o & -> & C). exists o. split; [reflexivity|]. apply cp_gone; [discriminate|exact E|exact C].
    + destruct (K _ H) as (o & -> & C). eexists. split; [reflexivity|]. rewrite <- E. apply cp_text; [discriminate|rewrite E; discriminate|rewrite E; exact C].
  - destruct (K _ H) as (o & -> & C). eexists. split; [reflexivity|]. apply cp_leaf; [exact Logic.I|exact C].
  - destruct (K _ H) as (o & -> & C). eexists. split; [reflexivity|]. apply cp_leaf; [exact Logic.I|exact C].
  - destruct (K _ H) as (o & -> & C). eexists. split; [reflexivity|]. apply cp_leaf; [exact Logic.I|exact C].
  - destruct (walk fuel T None s [] (map (pair O) cs)) as [cs'|] eqn:E; [|discriminate H]. destruct (K _ H) as (o & -> & C). eexists. split; [reflexivity|].
    destruct (IH _ _ _ _ _ E) as (o' & -> & C'). cbn [rev app] in *. apply cp_doc; [exact C'|exact C].
  - rewrite WS in H. destruct (walk fuel T (Some name) (s || in_strs (lower name) skip) [] (map (pair O) cs)) as [cs'|] eqn:E; [|discriminate H].
    destruct (IH _ _ _ _ _ E) as (o' & -> & C'). cbn [rev app] in *. destruct tc as [tc|].
    + destruct (walk fuel T None (s || in_strs (lower name) skip) [] (map (pair O) tc)) as [tc'|] eqn:E2; [|discriminate H].
      destruct (IH _ _ _ _ _ E2) as (o2 & -> & C2). cbn [rev app] in *. destruct (K _ H) as (o & -> & C). eexists. split; [reflexivity|]. apply cp_tmpl; assumption.
    + destruct (K _ H) as (o & -> & C). eexists. split; [reflexivity|]. apply cp_elem; assumption.
Qed.
Lemma cpass_det p s left l o : cpass p s left l o -> forall o2, cpass p s left l o2 -> o = o2.
Proof.
  induction 1 as [p s left|p s left d l o D C IH|p left d l o D E C IH|p left d l o D E C IH|p s left n l o L C IH|p s left cs cs' l o C1 IH1 C IH|p s left name ns attrs cs cs' l o C1 IH1 C IH|p s left name ns attrs cs cs' tc tc' l o C1 IH1 C2 IH2 C IH];
    intros o2 H; inversion H; subst; try contradiction; try (destruct D as [D|D]; congruence); try (exfalso; match goal with D : _ = true \/ _ = [] |- _ => destruct D; congruence end);
    try (match goal with L : False |- _ => destruct L end); try reflexivity; try congruence.
  - f_equal. apply IH; assumption.
  - apply IH; assumption.
  - f_equal. apply IH. assumption.
  - f_equal. apply IH; assumption.
  - match goal with H : cpass None s [] cs ?c |- _ => rewrite (IH1 _ H) in * end. f_equal. apply IH. assumption.
  - match goal with H : cpass (Some name) _ [] cs ?c |- _ => rewrite (IH1 _ H) in * end. f_equal. apply IH. assumption.
  - match goal with H : cpass (Some name) _ [] cs ?c |- _ => rewrite (IH1 _ H) in * end. match goal with H : cpass None _ [] tc ?c |- _ => rewrite (IH2 _ H) in * end. f_equal. apply IH. assumption.
Qed.

(* what shows *)
Lemma get_has k attrs : attr_has k attrs = has_attr k attrs.
Proof.
  unfold attr_has, has_attr. induction attrs as [|[k' v] t IH]; [reflexivity|]. cbn [attr_get existsb fst]. rewrite (str_eqb_sym k' k). destruct (str_eqb k k'); [reflexivity|exact IH].
Qed.
Lemma get_is k v attrs : v <> [] -> str_eqb (lower (attr_str k attrs)) v = attr_is k v attrs.
Proof.
  intros Hv. unfold attr_str, attr_is. induction attrs as [|[k' w] t IH]; [cbn; destruct v; [congruence|reflexivity]|]. cbn [attr_get List.find fst]. rewrite (str_eqb_sym k' k). destruct (str_eqb k k'); [|exact IH].
  destruct w; [reflexivity|]. cbn. destruct v; [congruence|reflexivity].
Qed.
Lemma rendered_shows n : is_rendered n = shows n.
Proof.
  destruct n as [d|d|d|d|cs|name ns attrs cs tc]; try reflexivity. cbn [is_rendered shows]. f_equal. unfold invisible. rewrite !get_has, get_is by discriminate. change (map u _) with non_rendered.
  destruct (has_attr (u "hidden") attrs), (in_strs (lower name) non_rendered); reflexivity.
Qed.
Lemma sibling_breaks n : is_block_sibling blocks n = breaks blocks n. Proof. destruct n; reflexivity. Qed.
Notation S1 n := (stream (shown_lines blocks n)).
Definition SL (l : list node) := stream (flat_map (shown_lines blocks) l).
Lemma SL_app a b : SL (a ++ b) = SL a ++ SL b. Proof. unfold SL. rewrite flat_map_app. apply stream_app. Qed.
Lemma SL_cons n l : SL (n :: l) = S1 n ++ SL l. Proof. unfold SL. cbn [flat_map]. apply stream_app. Qed.
Lemma hidden_empty n : shows n = false -> S1 n = [].
Proof.
  destruct n as [d|d|d|d|cs|name ns attrs cs tc]; cbn [shows shown_lines]; try reflexivity; try discriminate; [destruct d; [reflexivity|discriminate]|]. intros H. apply negb_false_iff in H. rewrite H. reflexivity.
Qed.
Lemma breaks_edges n : shows n = true -> breaks blocks n = true -> exists y z, S1 n = None :: y /\ S1 n = z ++ [None].
Proof.
  destruct n as [d|d|d|d|cs|name ns attrs cs tc]; cbn [shows breaks shown_lines]; try discriminate.
  - intros _ ->. exists [], []. split; reflexivity.
  - intros H K. apply negb_true_iff in H. rewrite H, K. change (Boundary :: flat_map (shown_lines blocks) cs ++ [Boundary]) with ([Boundary] ++ flat_map (shown_lines blocks) cs ++ [Boundary]).
    rewrite !stream_app. exists (stream (flat_map (shown_lines blocks) cs) ++ [None]), ([None] ++ stream (flat_map (shown_lines blocks) cs)). split; [reflexivity|]. rewrite <- app_assoc. reflexivity.
Qed.
Definition pre (p : option str) : list (option N) := match p with Some name => if in_strs (lower name) blocks then [None] else [] | None => [] end.
Lemma nearest_split l : match nearest_rendered l with
  | None => forall x, In x l -> shows x = false
  | Some n => exists a b, l = a ++ n :: b /\ shows n = true /\ forall x, In x a -> shows x = false end.
Proof.
  unfold nearest_rendered. induction l as [|n l IH]; cbn [List.find]; [intros x []|]. destruct (is_rendered n) eqn:E.
  - exists [], l. rewrite <- rendered_shows. repeat split; [exact E|intros x []].
  - rewrite rendered_shows in E. destruct (List.find is_rendered l).
    + destruct IH as (a & b & -> & H & K). exists (n :: a), b. repeat split; [exact H|]. intros x [<-|I]; [exact E|exact (K x I)].
    + intros x [<-|I]; [exact E|exact (IH x I)].
Qed.
Lemma SL_hidden l : (forall x, In x l -> shows x = false) -> SL l = [].
Proof. induction l as [|n l IH]; intros H; [reflexivity|]. rewrite SL_cons, (hidden_empty n), IH; [reflexivity| |]; [intros x I; apply H; right; exact I|apply H; left; reflexivity]. Qed.
Lemma left_edge name left : in_strs (lower name) blocks = true -> edge blocks (nearest_rendered left) = true -> exists x, pre (Some name) ++ SL (rev left) = x ++ [None].
Proof.
  intros Hb E. cbn [pre]. rewrite Hb. pose proof (nearest_split left) as H. destruct (nearest_rendered left) as [n|].
  - cbn [edge] in E. rewrite sibling_breaks in E. destruct H as (a & b & -> & Hn & K). destruct (breaks_edges n Hn E) as (y & z & _ & Ez). rewrite rev_app_distr. cbn [rev]. rewrite !SL_app.
    rewrite SL_cons, Ez, (SL_hidden (rev a)) by (intros x I; apply K, in_rev, I). exists (None :: SL (rev b) ++ z). cbn [app]. f_equal. rewrite app_nil_r, <- !app_assoc. cbn [app SL flat_map stream]. reflexivity.
  - exists []. rewrite (SL_hidden (rev left)) by (intros x I; apply H, in_rev, I). reflexivity.
Qed.
Lemma right_edge name right : in_strs (lower name) blocks = true -> edge blocks (nearest_rendered right) = true -> exists y, SL right ++ pre (Some name) = None :: y.
Proof.
  intros Hb E. cbn [pre]. rewrite Hb. pose proof (nearest_split right) as H. destruct (nearest_rendered right) as [n|].
  - cbn [edge] in E. rewrite sibling_breaks in E. destruct H as (a & b & -> & Hn & K). destruct (breaks_edges n Hn E) as (y & z & Ey & _). rewrite SL_app, SL_cons, Ey, (SL_hidden a K). eexists. reflexivity.
  - exists []. rewrite (SL_hidden right H). reflexivity.
Qed.
Lemma lstrip_split s : exists a, s = a ++ lstrip_by is_html_space s /\ forallb is_html_space a = true.
Proof. exists (take_while is_html_space s). split; [apply drop_while_app|apply take_while_all]. Qed.
Lemma rstrip_split s : exists a, s = rstrip_by is_html_space s ++ a /\ forallb is_html_space a = true.
Proof.
  unfold rstrip_by. exists (rev (take_while is_html_space (rev s))). split.
  - rewrite <- rev_app_distr, <- drop_while_app, rev_involutive. reflexivity.
  - rewrite forallb_forall. intros x I. apply in_rev in I. pose proof (take_while_all is_html_space (rev s)) as F. rewrite forallb_forall in F. exact (F x I).
Qed.
(* the first step: a leading space after a space goes *)
Definition led (left : list node) (d : str) : str :=
  match d with
  | c :: rest => if c =? 32 then match nearest_rendered left with Some (NText p) => match rev p with e :: _ => if is_html_space e then rest else d | [] => d end | _ => d end else d
  | [] => d
  end.
Lemma collapsed_led p left right d : collapsed_text trim blocks p left right d = if trim then trim_block_edge p left right blocks (led left (collapse_spaces d)) else led left (collapse_spaces d).
Proof. reflexivity. Qed.
Lemma led_cases left d : led left d = d \/ exists p c, d = 32 :: led left d /\ nearest_rendered left = Some (NText (p ++ [c])) /\ is_html_space c = true.
Proof.
  unfold led. destruct d as [|c rest]; [left; reflexivity|]. destruct (c =? 32) eqn:Ec; [|left; reflexivity]. apply N.eqb_eq in Ec. subst c.
  destruct (nearest_rendered left) as [[p| | | | |]|]; try (left; reflexivity). destruct (rev p) as [|e q] eqn:Er; [left; reflexivity|]. destruct (is_html_space e) eqn:Ee; [|left; reflexivity].
  right. exists (rev q), e. split; [reflexivity|]. split; [|exact Ee]. f_equal. f_equal. rewrite <- (rev_involutive p), Er. reflexivity.
Qed.
Lemma eqv_led p left d x : eqv (pre p ++ SL (rev left) ++ map Some (led left d) ++ x) (pre p ++ SL (rev left) ++ map Some d ++ x).
Proof.
  destruct (led_cases left d) as [->|(q & c & Ed & Hn & Hc)]; [apply eqv_refl|].
  pose proof (nearest_split left) as H. rewrite Hn in H. destruct H as (a & b & El & Hs & K).
  assert (EL : SL (rev left) = (SL (rev b) ++ map Some q) ++ [Some c]).
  { rewrite El, rev_app_distr. cbn [rev]. rewrite !SL_app, SL_cons, (SL_hidden (rev a)) by (intros y I; apply K, in_rev, I). cbn [shown_lines stream flat_map SL]. rewrite map_app, !app_nil_r, <- app_assoc. reflexivity. }
  rewrite Ed at 2. cbn [map app]. rewrite EL. apply eqv_sym.
  pose proof (eqv_app _ _ (map Some (led left d) ++ x) _ (eqv_after_space (pre p ++ SL (rev b) ++ map Some q) c [32] Hc eq_refl) (eqv_refl _)) as E.
  rewrite <- !app_assoc in E. rewrite <- !app_assoc. exact E.
Qed.

Lemma trim_none p left right d : (match p with Some name => in_strs (lower name) blocks = false | None => True end) -> trim_block_edge p left right blocks d = d.
Proof. destruct p as [name|]; [|reflexivity]. cbn [trim_block_edge]. intros ->. reflexivity. Qed.
Lemma eqv_trim p left right d : eqv (pre p ++ SL (rev left) ++ map Some (trim_block_edge p left right blocks d) ++ SL right ++ pre p) (pre p ++ SL (rev left) ++ map Some d ++ SL right ++ pre p).
Proof.
  destruct p as [name|]; [|apply eqv_refl]. destruct (in_strs (lower name) blocks) eqn:Hb; [|rewrite trim_none by exact Hb; apply eqv_refl].
  unfold trim_block_edge. rewrite Hb. cbn [negb].
  set (d1 := if edge blocks (nearest_rendered left) then lstrip_by is_html_space d else d).
  apply (eqv_trans _ (pre (Some name) ++ SL (rev left) ++ map Some d1 ++ SL right ++ pre (Some name))).
  - destruct (edge blocks (nearest_rendered right)) eqn:E; [|apply eqv_refl]. destruct (right_edge name right Hb E) as (y & Ey). rewrite Ey. destruct (rstrip_split d1) as (a & Ea & Ha). rewrite Ea at 2. rewrite map_app, <- app_assoc.
    apply eqv_app; [apply eqv_refl|]. apply eqv_app; [apply eqv_refl|]. apply eqv_app; [apply eqv_refl|]. apply eqv_sym, eqv_before_break, Ha.
  - subst d1. destruct (edge blocks (nearest_rendered left)) eqn:E; [|apply eqv_refl]. destruct (left_edge name left Hb E) as (x & Ex). destruct (lstrip_split d) as (a & Ea & Ha). rewrite Ea at 2.
    rewrite !app_assoc, Ex, map_app, <- !app_assoc. rewrite !app_assoc. apply eqv_sym. rewrite <- !(app_assoc ((x ++ [None]))). rewrite !(app_assoc (x ++ [None])). 
    pose proof (eqv_app _ _ (map Some (lstrip_by is_html_space d) ++ SL right ++ pre (Some name)) _ (eqv_after_break x a Ha) (eqv_refl _)) as Q. rewrite <- !app_assoc in Q. rewrite <- !app_assoc. exact Q.
Qed.
Lemma eqv_text p left right d : eqv (pre p ++ SL (rev left) ++ map Some (collapsed_text trim blocks p left right d) ++ SL right ++ pre p) (pre p ++ SL (rev left) ++ map Some d ++ SL right ++ pre p).
Proof.
  rewrite collapsed_led. apply (eqv_trans _ (pre p ++ SL (rev left) ++ map Some (led left (collapse_spaces d)) ++ SL right ++ pre p)).
  - destruct trim; [apply eqv_trim|apply eqv_refl].
  - eapply eqv_trans; [apply eqv_led|]. apply eqv_app; [apply eqv_refl|]. apply eqv_app; [apply eqv_refl|]. apply eqv_app; [|apply eqv_refl]. apply eqv_collapse.
Qed.
Lemma S1_text d : S1 (NText d) = map Some d. Proof. cbn. apply app_nil_r. Qed.
Lemma S1_elem name ns attrs cs cs' tc tc' : eqv (pre (Some name) ++ SL cs ++ pre (Some name)) (pre (Some name) ++ SL cs' ++ pre (Some name)) ->
  eqv (S1 (NElem name ns attrs cs tc)) (S1 (NElem name ns attrs cs' tc')).
Proof.
  intros H. cbn [shown_lines]. destruct (invisible name attrs); [apply eqv_refl|]. cbn [pre] in H. destruct (in_strs (lower name) blocks).
  - rewrite orb_true_r. change (stream (Boundary :: flat_map (shown_lines blocks) cs ++ [Boundary])) with (stream ([Boundary] ++ flat_map (shown_lines blocks) cs ++ [Boundary])).
    change (stream (Boundary :: flat_map (shown_lines blocks) cs' ++ [Boundary])) with (stream ([Boundary] ++ flat_map (shown_lines blocks) cs' ++ [Boundary])). rewrite !stream_app. exact H.
  - rewrite orb_false_r. cbn [app] in H. rewrite !app_nil_r in H. destruct (str_eqb (lower name) (u "br")); [|exact H].
    change (stream (Boundary :: flat_map (shown_lines blocks) cs ++ [Boundary])) with (stream ([Boundary] ++ flat_map (shown_lines blocks) cs ++ [Boundary])).
    change (stream (Boundary :: flat_map (shown_lines blocks) cs' ++ [Boundary])) with (stream ([Boundary] ++ flat_map (shown_lines blocks) cs' ++ [Boundary])). rewrite !stream_app. apply eqv_mid, H.
Qed.
Lemma cpass_words p s left l o : cpass p s left l o -> eqv (pre p ++ SL (rev left) ++ SL l ++ pre p) (pre p ++ SL (rev left) ++ SL o ++ pre p).
Proof.
  assert (K : forall p left n n' l o, eqv (pre p ++ SL (rev left) ++ S1 n ++ SL l ++ pre p) (pre p ++ SL (rev left) ++ S1 n' ++ SL l ++ pre p) ->
    eqv (pre p ++ SL (rev (n' :: left)) ++ SL l ++ pre p) (pre p ++ SL (rev (n' :: left)) ++ SL o ++ pre p) ->
    eqv (pre p ++ SL (rev left) ++ SL (n :: l) ++ pre p) (pre p ++ SL (rev left) ++ SL (n' :: o) ++ pre p)).
  { clear. intros p left n n' l o H K. rewrite !SL_cons, <- !app_assoc. eapply eqv_trans; [exact H|]. cbn [rev] in K. rewrite !SL_app, <- !app_assoc in K. rewrite !(SL_cons n') in K. cbn [SL flat_map stream app] in K. rewrite !app_nil_r in K || idtac. exact K. }
  induction 1 as [p s left|p s left d l o D C IH|p left d l o D E C IH|p left d l o D E C IH|p s left n l o L C IH|p s left cs cs' l o C1 IH1 C IH|p s left name ns attrs cs cs' l o C1 IH1 C IH|p s left name ns attrs cs cs' tc tc' l o C1 IH1 C2 IH2 C IH].
  - apply eqv_refl.
  - apply K; [apply eqv_refl|exact IH].
  - eapply eqv_trans; [|exact IH]. rewrite SL_cons, S1_text, <- app_assoc. apply eqv_sym. pose proof (eqv_text p left l d) as Q. rewrite E in Q. exact Q.
  - apply K; [|exact IH]. rewrite !S1_text. apply eqv_sym, eqv_text.
  - apply K; [apply eqv_refl|exact IH].
  - apply K; [apply eqv_refl|exact IH].
  - apply K; [|exact IH]. apply eqv_app; [apply eqv_refl|]. apply eqv_mid. apply S1_elem. exact IH1.
  - apply K; [|exact IH]. apply eqv_app; [apply eqv_refl|]. apply eqv_mid. apply S1_elem. exact IH1.
Qed.

(* ---------- the texts ---------- *)
Lemma single_part a b c : single_spaced (a ++ b ++ c) -> single_spaced b.
Proof.
  intros [H K]. split.
  - intros x I. apply H, in_or_app. right. apply in_or_app. left. exact I.
  - intros x e f y -> . apply (K (a ++ x) e f (y ++ c)). rewrite <- !app_assoc. reflexivity.
Qed.
Lemma single_collapse d : single_spaced (collapse_spaces d).
Proof. rewrite collapse_is_loop. destruct (loop_out d false) as (H1 & H2 & _) || destruct (loop_out d false) as (H1 & H2). split; [exact H1|exact H2]. Qed.
Lemma solid_app a b : solid_chars (a ++ b) = solid_chars a ++ solid_chars b. Proof. apply filter_app. Qed.
Lemma solid_spaces a : forallb is_html_space a = true -> solid_chars a = [].
Proof. unfold solid_chars. induction a as [|c a IH]; intros H; [reflexivity|]. cbn [forallb] in H. apply andb_true_iff in H as [H1 H]. cbn [filter]. rewrite H1. cbn [negb]. exact (IH H). Qed.
Lemma part_trim p left right d : exists a b, d = a ++ trim_block_edge p left right blocks d ++ b /\ forallb is_html_space a = true /\ forallb is_html_space b = true.
Proof.
  destruct p as [name|]; [|exists [], []; rewrite app_nil_r; repeat split]. unfold trim_block_edge. destruct (negb (in_strs (lower name) blocks)); [exists [], []; rewrite app_nil_r; repeat split|].
  set (d1 := if edge blocks (nearest_rendered left) then lstrip_by is_html_space d else d).
  assert (A : exists a, d = a ++ d1 /\ forallb is_html_space a = true) by (subst d1; destruct (edge blocks (nearest_rendered left)); [apply lstrip_split|exists []; split; reflexivity]).
  destruct A as (a & Ea & Ha).
  assert (B : exists b, d1 = (if edge blocks (nearest_rendered right) then rstrip_by is_html_space d1 else d1) ++ b /\ forallb is_html_space b = true)
    by (destruct (edge blocks (nearest_rendered right)); [apply rstrip_split|exists []; rewrite app_nil_r; split; reflexivity]).
  destruct B as (b & Eb & Hb). exists a, b. split; [|split; assumption]. etransitivity; [exact Ea|]. f_equal. exact Eb.
Qed.
Lemma part_led left d : exists a, d = a ++ led left d /\ forallb is_html_space a = true.
Proof. destruct (led_cases left d) as [->|(q & c & Ed & _)]; [exists []; split; reflexivity|]. exists [32]. split; [exact Ed|reflexivity]. Qed.
Lemma part_collapsed p left right d : exists a b, collapse_spaces d = a ++ collapsed_text trim blocks p left right d ++ b /\ forallb is_html_space a = true /\ forallb is_html_space b = true.
Proof.
  rewrite collapsed_led. destruct (part_led left (collapse_spaces d)) as (a & Ea & Ha). destruct trim; [|exists a, []; rewrite app_nil_r; repeat split; assumption].
  destruct (part_trim p left right (led left (collapse_spaces d))) as (a2 & b2 & E2 & H2 & H3). exists (a ++ a2), b2. rewrite <- app_assoc, <- E2. repeat split; [exact Ea| |exact H3]. rewrite forallb_app, Ha. exact H2.
Qed.
Lemma collapsed_solid p left right d : solid_chars (collapsed_text trim blocks p left right d) = solid_chars d.
Proof.
  destruct (part_collapsed p left right d) as (a & b & E & Ha & Hb). apply (f_equal solid_chars) in E. rewrite !solid_app, (solid_spaces a Ha), (solid_spaces b Hb), app_nil_r in E. cbn [app] in E. rewrite <- E, collapse_is_loop. apply loop_keeps.
Qed.
Lemma collapsed_single p left right d : single_spaced (collapsed_text trim blocks p left right d).
Proof. destruct (part_collapsed p left right d) as (a & b & E & _). apply (single_part a _ b). rewrite <- E. apply single_collapse. Qed.
Lemma cpass_tidied p s left l o : cpass p s left l o -> tidied skip s l o.
Proof.
  induction 1 as [p s left|p s left d l o D C IH|p left d l o D E C IH|p left d l o D E C IH|p s left n l o L C IH|p s left cs cs' l o C1 IH1 C IH|p s left name ns attrs cs cs' l o C1 IH1 C IH|p s left name ns attrs cs cs' tc tc' l o C1 IH1 C2 IH2 C IH]; try (constructor; assumption).
  - destruct D as [->| ->]; [apply td_skipped, IH|]. destruct s; [apply td_skipped, IH|]. apply td_text; [reflexivity| |exact IH]. split; [intros c []|]. intros x c d y E. destruct x; discriminate E.
  - apply td_gone; [|exact IH]. rewrite <- (collapsed_solid p left l d), E. reflexivity.
  - apply td_text; [apply collapsed_solid|apply collapsed_single|exact IH].
  - destruct n; try destruct L; constructor; exact IH.
Qed.

(* ---------- leading edges ---------- *)
Definition unspaced (d : str) : Prop := match d with c :: _ => is_html_space c = false | [] => True end.
Definition starts_ok (m : node) : Prop := forall name ns attrs a d b tc, m = NElem name ns attrs (a ++ NText d :: b) tc ->
  in_strs (lower name) blocks = true -> line_start blocks a -> unspaced d.
Lemma start_edge left : line_start blocks (rev left) -> edge blocks (nearest_rendered left) = true.
Proof.
  intros H. pose proof (nearest_split left) as N0. destruct (nearest_rendered left) as [n|]; [|reflexivity]. cbn [edge]. rewrite sibling_breaks. destruct N0 as (a & b & -> & Hn & K). rewrite rev_app_distr in H. cbn [rev] in H. destruct H as [H|(x & y & z & E & Hy & Hb & Hz)].
  - rewrite H in Hn; [discriminate Hn|]. apply in_or_app. left. apply in_or_app. right. left. reflexivity.
  - apply (f_equal (@rev _)) in E. rewrite !rev_app_distr in E. cbn [rev app] in E. rewrite !rev_involutive, <- app_assoc in E. cbn [app] in E.
    assert (Q : n = y); [|subst y; exact Hb]. assert (Hz' : forall v, In v (rev z) -> shows v = false) by (intros v I; apply Hz, in_rev, I). clear -E K Hz' Hn Hy. revert E Hz'. generalize (rev z). revert K. induction a as [|v a IH]; intros K [|w c] E Hz; cbn [app] in E.
    + congruence.
    + injection E as -> _. rewrite Hz in Hn; [discriminate Hn|left; reflexivity].
    + injection E as -> _. rewrite K in Hy; [discriminate Hy|left; reflexivity].
    + assert (E2 : a ++ n :: b = c ++ y :: rev x) by congruence. apply (IH (fun u I => K u (or_intror I)) c E2). intros u I. apply Hz. right. exact I.
Qed.
Lemma drop_unspaced s : unspaced (drop_while is_html_space s).
Proof. destruct (drop_while is_html_space s) as [|c r] eqn:E; [exact Logic.I|]. exact (drop_while_head is_html_space s c r E). Qed.
Lemma collapsed_start name left right d : trim = true -> in_strs (lower name) blocks = true -> line_start blocks (rev left) -> unspaced (collapsed_text trim blocks (Some name) left right d).
Proof.
  intros Ht Hb Hl. rewrite collapsed_led, Ht. unfold trim_block_edge. rewrite Hb, (start_edge _ Hl). cbn [negb]. set (d1 := lstrip_by is_html_space (led left (collapse_spaces d))). assert (U : unspaced d1) by apply drop_unspaced.
  destruct (edge blocks (nearest_rendered right)); [|exact U]. destruct (rstrip_split d1) as (a & Ea & _). destruct (rstrip_by is_html_space d1) as [|c r]; [exact Logic.I|]. rewrite Ea in U. exact U.
Qed.
Lemma line_snoc_hidden l n : line_start blocks (l ++ [n]) -> line_start blocks (l ++ [n]). Proof. trivial. Qed.
Lemma cpass_starts p s left l o : trim = true -> cpass p s left l o -> s = false ->
  (forall c, In c o -> forall m, visible skip m c -> starts_ok m) /\
  (forall name, p = Some name -> in_strs (lower name) blocks = true -> forall a d b, o = a ++ NText d :: b -> line_start blocks (rev left ++ a) -> unspaced d).
Proof.
  intros Ht. assert (KT : forall p left n o, (forall name, p = Some name -> in_strs (lower name) blocks = true -> forall a d b, o = a ++ NText d :: b -> line_start blocks (rev (n :: left) ++ a) -> unspaced d) ->
    (forall name d, p = Some name -> in_strs (lower name) blocks = true -> n = NText d -> line_start blocks (rev left) -> unspaced d) ->
    (forall name, p = Some name -> in_strs (lower name) blocks = true -> forall a d b, n :: o = a ++ NText d :: b -> line_start blocks (rev left ++ a) -> unspaced d)).
  { intros p0 left0 n o0 H1 H2 name Ep Hb a d b E Hl. destruct a as [|x a]; cbn [app] in E.
    - injection E as -> _. rewrite app_nil_r in Hl. exact (H2 name d Ep Hb eq_refl Hl).
    - injection E as -> E. apply (H1 name Ep Hb a d b E). cbn [rev]. rewrite <- app_assoc. exact Hl. }
  assert (VL : forall n m, visible skip m n -> (match n with NText _ | NComment _ | NPI _ | NDoctype _ => True | _ => False end) -> starts_ok m).
  { intros n m V Hn. inversion V as [Hv|c cs I V2|c nm ns0 at0 cs0 tc0 Hs I V2|c nm ns0 at0 cs0 l0 Hs I V2]; subst; try destruct Hn. intros name ns attrs a d b tc ->. destruct Hn. }
  assert (VE : forall s0 name ns attrs cs tc, (s0 || in_strs (lower name) skip = false -> (forall c, In c cs -> forall m, visible skip m c -> starts_ok m) /\
       (in_strs (lower name) blocks = true -> forall a d b, cs = a ++ NText d :: b -> line_start blocks a -> unspaced d) /\ (forall t, tc = Some t -> forall c, In c t -> forall m, visible skip m c -> starts_ok m)) ->
     s0 = false -> forall m, visible skip m (NElem name ns attrs cs tc) -> starts_ok m).
  { intros s0 name ns attrs cs tc H -> m V. cbn [orb] in H. inversion V as [Hv|c cs0 I V2|c nm ns0 at0 cs0 tc0 Hs I V2|c nm ns0 at0 cs0 l0 Hs I V2]; subst.
    - destruct (H Hv) as (_ & H2 & _). intros nm ns0 at0 a d b tc0 E Hb Hl. injection E as -> -> -> -> ->. exact (H2 Hb a d b eq_refl Hl).
    - destruct (H Hs) as (H1 & _). exact (H1 c I m V2).
    - destruct (H Hs) as (_ & _ & H3). exact (H3 l0 eq_refl c I m V2). }
  intros C. induction C as [p s left|p s left d l o D C IH|p left d l o D E C IH|p left d l o D E C IH|p s left n l o L C IH|p s left cs cs' l o C1 IH1 C IH|p s left name ns attrs cs cs' l o C1 IH1 C IH|p s left name ns attrs cs cs' tc tc' l o C1 IH1 C2 IH2 C IH]; intros Hs.
  - split; [intros c []|]. intros name _ _ a d b E. destruct a; discriminate E.
  - destruct (IH Hs) as [A B]. destruct D as [D|D]; [congruence|]. subst d. split; [intros c [<-|I]; [intros m V; exact (VL _ m V Logic.I)|exact (A c I)]|]. apply KT; [exact B|]. intros name d _ _ Ed _. injection Ed as <-. exact Logic.I.
  - exact (IH Hs).
  - destruct (IH Hs) as [A B]. split; [intros c [<-|I]; [intros m V; exact (VL _ m V Logic.I)|exact (A c I)]|]. apply KT; [exact B|]. intros name d0 -> Hb Ed Hl. injection Ed as <-. apply collapsed_start; assumption.
  - destruct (IH Hs) as [A B]. split; [intros c [<-|I]; [intros m V; apply (VL _ m V); destruct n; try destruct L; exact Logic.I|exact (A c I)]|]. apply KT; [exact B|]. intros name d -> _ -> _. destruct L.
  - destruct (IH Hs) as [A B]. destruct (IH1 Hs) as [A1 _]. split; [intros c [<-|I]; [|exact (A c I)]|].
    + intros m V. inversion V as [Hv|c cs0 I V2| |]; subst; [intros nm ns0 at0 a d b tc0 E; discriminate E|exact (A1 c I m V2)].
    + apply KT; [exact B|]. intros name d _ _ E. discriminate E.
  - destruct (IH Hs) as [A B]. split; [intros c [<-|I]; [|exact (A c I)]|].
    + apply (VE s); [|exact Hs]. intros Hk. destruct (IH1 Hk) as [A1 B1]. split; [exact A1|]. split; [intros Hb a d b E Hl; exact (B1 name eq_refl Hb a d b E Hl)|discriminate].
    + apply KT; [exact B|]. intros nm d _ _ E. discriminate E.
  - destruct (IH Hs) as [A B]. split; [intros c [<-|I]; [|exact (A c I)]|].
    + apply (VE s); [|exact Hs]. intros Hk. destruct (IH1 Hk) as [A1 B1]. destruct (IH2 Hk) as [A2 _]. split; [exact A1|]. split; [intros Hb a d b E Hl; exact (B1 name eq_refl Hb a d b E Hl)|].
      intros t Et. injection Et as <-. exact A2.
    + apply KT; [exact B|]. intros nm d _ _ E. discriminate E.
Qed.

(* ---------- a second time ---------- *)
Lemma single_fix d : single_spaced d -> collapse_spaces d = d.
Proof. intros [H K]. rewrite collapse_is_loop. apply loop_fix; assumption. Qed.
Lemma led_fix left d : single_spaced d -> led left (led left d) = led left d.
Proof.
  intros Hs. destruct (led_cases left d) as [E|(q & c & Ed & _)]; [rewrite !E; reflexivity|]. destruct (led left d) as [|x r] eqn:El; [reflexivity|].
  assert (Hx : is_html_space x = false) by (apply (proj2 Hs [] 32 x r); [exact Ed|reflexivity]). unfold led. destruct (x =? 32) eqn:Ex; [|reflexivity]. apply N.eqb_eq in Ex. subst x. discriminate Hx.
Qed.
Lemma collapsed_fix p left right right' d : trim = false -> collapsed_text trim blocks p left right' (collapsed_text trim blocks p left right d) = collapsed_text trim blocks p left right d.
Proof.
  intros Ht. rewrite !collapsed_led, Ht. assert (S0 : single_spaced (led left (collapse_spaces d))).
  { pose proof (collapsed_single p left right d) as H. rewrite collapsed_led, Ht in H. exact H. }
  rewrite (single_fix _ S0). apply led_fix, single_collapse.
Qed.
Lemma cpass_again p s left l o : trim = false -> cpass p s left l o -> cpass p s left o o.
Proof.
  intros Ht C. induction C as [p s left|p s left d l o D C IH|p left d l o D E C IH|p left d l o D E C IH|p s left n l o L C IH|p s left cs cs' l o C1 IH1 C IH|p s left name ns attrs cs cs' l o C1 IH1 C IH|p s left name ns attrs cs cs' tc tc' l o C1 IH1 C2 IH2 C IH].
  - constructor.
  - apply cp_same; assumption.
  - exact IH.
  - pose proof (collapsed_fix p left l o d Ht) as F. rewrite <- F at 2. apply cp_text; [exact E|rewrite F; exact E|rewrite F; exact IH].
  - apply cp_leaf; assumption.
  - apply cp_doc; assumption.
  - apply cp_elem; assumption.
  - apply cp_tmpl; assumption.
Qed.
Lemma walk_again p s l o l' fuel out : trim = false -> cpass p s [] l o -> l' = o -> walk fuel [TCollapse skip trim blocks] p s [] (map (pair O) l') = Some out -> out = o.
Proof.
  intros Ht C -> W. destruct (walk_cpass _ _ _ _ _ _ W) as (o2 & -> & C2). cbn [rev app]. symmetry. exact (cpass_det _ _ _ _ _ (cpass_again _ _ _ _ _ Ht C) _ C2).
Qed.
End collapse.
