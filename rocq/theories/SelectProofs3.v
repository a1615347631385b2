(* what the scan of a select finds *)
From Coq Require Import List Arith Bool Lia.
From Verif Require Import Str StrFacts FinishModel FinishSpec FinishProofs SelectModel SelectSpec SelectProofs SelectProofs2.
Import ListNotations.
Open Scope list_scope. Open Scope nat_scope.

Lemma subs_subtrees t : subs t = subtrees t.
Proof. reflexivity. Qed.
Definition or_else {A} (a b : option A) : option A := match a with Some x => Some x | None => b end.
Lemma or_assoc {A} (a b c : option A) : or_else a (or_else b c) = or_else (or_else a b) c.
Proof. now destruct a. Qed.
Lemma hd_app {A} (a b : list A) : hd_error (a ++ b) = or_else (hd_error a) (hd_error b).
Proof. now destruct a. Qed.
Lemma last_app {A} (a b : list A) : last_of (a ++ b) = or_else (last_of b) (last_of a).
Proof. unfold last_of. rewrite rev_app_distr. apply hd_app. Qed.
Section scan.
Variable inf : nat -> item.
Definition chosen_in (mu : bool) (l : list (tree * bool)) : option tree :=
  let m := filter (fun o => has_attr (u "selected") (inf (root o))) (map fst l) in if mu then hd_error m else last_of m.
Definition enabled_in (l : list (tree * bool)) : option tree := hd_error (map fst (filter (fun o : tree * bool => negb (snd o)) l)).
Lemma chosen_app mu a b : chosen_in mu (a ++ b) = if mu then or_else (chosen_in mu a) (chosen_in mu b) else or_else (chosen_in mu b) (chosen_in mu a).
Proof. unfold chosen_in. rewrite map_app, filter_app. destruct mu; [apply hd_app|apply last_app]. Qed.
Lemma enabled_app a b : enabled_in (a ++ b) = or_else (enabled_in a) (enabled_in b).
Proof. unfold enabled_in. rewrite filter_app, map_app. apply hd_app. Qed.
Definition opts (da di : bool) (t : tree) : list (tree * bool) := if da then [] else options inf di t.
Definition marks (p : nat) (l : list nat) : list (nat * nat) := filter (fun x => name_is (u "selectedcontent") (inf (fst x))) (combine l (seq (S p) (List.length l))).
Lemma combine_app {A B} (a b : list A) (c d : list B) : List.length a = List.length c -> combine (a ++ b) (c ++ d) = combine a c ++ combine b d.
Proof. revert c. induction a as [|x a IH]; intros [|y c] E; try discriminate; [reflexivity|]. cbn. f_equal. apply IH. now injection E. Qed.
Lemma marks_app p a b : marks p (a ++ b) = marks p a ++ marks (p + List.length a) b.
Proof. unfold marks. rewrite app_length, seq_app, combine_app by now rewrite seq_length. rewrite filter_app. reflexivity. Qed.
(* where a subtree stands *)
Definition stands (p : nat) (l : list nat) (o : tree) (ab : nat * nat) : Prop := exists pre post, l = pre ++ ids o ++ post /\ fst ab = S (p + List.length pre) /\ snd ab = p + List.length pre + size_of o.
Record scanned (mu : bool) (os : list (tree * bool)) (l : list nat) (ts : list tree) (sc sc' : scan) : Prop := Scanned {
  s_pos : position sc' = position sc + List.length l;
  s_first : first sc' = or_else (first sc) (enabled_in os);
  s_sel : selected sc' = if mu then or_else (selected sc) (chosen_in mu os) else or_else (chosen_in mu os) (selected sc);
  s_marks : markers sc' = markers sc ++ marks (position sc) l;
  s_spans : exists new, spans sc' = new ++ spans sc /\ (forall n ab, In (n, ab) new -> exists o, In o ts /\ root o = n /\ stands (position sc) l o ab) /\ (forall o b, In (o, b) os -> exists ab, In (root o, ab) new)
}.
Lemma scanned_app mu os os' l l' ts ts' a b c : scanned mu os l ts a b -> scanned mu os' l' ts' b c -> scanned mu (os ++ os') (l ++ l') (ts ++ ts') a c.
Proof.
  intros A B. constructor.
  - rewrite (s_pos _ _ _ _ _ _ B), (s_pos _ _ _ _ _ _ A), app_length. lia.
  - rewrite (s_first _ _ _ _ _ _ B), (s_first _ _ _ _ _ _ A), enabled_app. symmetry. apply or_assoc.
  - rewrite (s_sel _ _ _ _ _ _ B), (s_sel _ _ _ _ _ _ A), chosen_app. destruct mu; [symmetry; apply or_assoc|apply or_assoc].
  - rewrite (s_marks _ _ _ _ _ _ B), (s_marks _ _ _ _ _ _ A), (s_pos _ _ _ _ _ _ A), marks_app. now rewrite app_assoc.
  - destruct (s_spans _ _ _ _ _ _ A) as (na & Ea & Qa & Ra), (s_spans _ _ _ _ _ _ B) as (nb & Eb & Qb & Rb). exists (nb ++ na). split; [rewrite Eb, Ea; apply app_assoc|]. split.
    + intros n ab H. apply in_app_iff in H as [H|H].
      * destruct (Qb n ab H) as (o & Ho & Er & pre & post & E & E1 & E2). exists o. split; [apply in_app_iff; now right|]. split; [exact Er|]. exists (l ++ pre), post. rewrite E. rewrite app_length. rewrite (s_pos _ _ _ _ _ _ A) in E1, E2. split; [now rewrite app_assoc|]. split; lia.
      * destruct (Qa n ab H) as (o & Ho & Er & pre & post & E & E1 & E2). exists o. split; [apply in_app_iff; now left|]. split; [exact Er|]. exists pre, (post ++ l'). rewrite E. rewrite <- !app_assoc. split; [reflexivity|]. split; lia.
    + intros o b' H. apply in_app_iff in H as [H|H]; [destruct (Ra o b' H) as (ab & Hab)|destruct (Rb o b' H) as (ab & Hab)]; exists ab; apply in_app_iff; tauto.
Qed.
Lemma scanned_nil mu sc : scanned mu [] [] [] sc sc.
Proof.
  constructor; cbn; [lia|now destruct (first sc)|destruct mu; cbn; now destruct (selected sc)|now rewrite app_nil_r|]. exists []. split; [reflexivity|]. split; [intros n ab []|intros o b []].
Qed.
Lemma scan_ok t : forall mu di da sc, scanned mu (opts da di t) (ids t) (subs t) sc (scan_tree inf mu false di da t sc).
Proof.
  induction t as [n l IH] using tree_ind'. intros mu di da sc.
  assert (W : forall (di da : bool) (sc : scan), scanned mu (if da then [] else flat_map (options inf di) l) (flat_map ids l) (flat_map subs l) sc (fold_left (fun s t => scan_tree inf mu false di da t s) l sc)).
  { clear -IH. intros di da. induction IH as [|t l Ht _ IHl]; intros sc; [destruct da; apply scanned_nil|]. cbn [fold_left flat_map]. pose proof (scanned_app _ _ _ _ _ _ _ _ _ _ (Ht mu di da sc) (IHl (scan_tree inf mu false di da t sc))) as H. unfold opts in H. destruct da; exact H. }
  cbn [scan_tree ids subs]. fold subs. set (di' := di || _). set (da' := da || _).
  assert (El : forall x : str, name_is x (inf n) = true -> is_elem (inf n) = true) by (intros x; destruct (inf n); cbn; congruence).
  assert (Eo : negb false && is_elem (inf n) && name_is (u "option") (inf n) = name_is (u "option") (inf n)). { destruct (name_is (u "option") (inf n)) eqn:E; [|apply andb_false_r]. now rewrite (El _ E). }
  assert (Em : negb false && is_elem (inf n) && name_is (u "selectedcontent") (inf n) = name_is (u "selectedcontent") (inf n)). { destruct (name_is (u "selectedcontent") (inf n)) eqn:E; [|apply andb_false_r]. now rewrite (El _ E). }
  rewrite Eo, Em. clear Eo Em El. set (mk := name_is (u "selectedcontent") (inf n)). set (op := name_is (u "option") (inf n)).
  (* the node itself *)
  set (head := (if op && negb da then [(T n l, di || has_attr (u "disabled") (inf n))] else []) : list (tree * bool)).
  assert (Eos : opts da di (T n l) = head ++ (if da' then [] else flat_map (options inf di') l)).
  { unfold opts, head, da', op. cbn [options]. destruct da; cbn [negb andb orb]; [now rewrite andb_false_r|]. rewrite andb_true_r. unfold di'. destruct (name_is (u "datalist") (inf n)); reflexivity. }
  rewrite Eos.
  assert (Q : forall sc1 q, position sc1 = S (position sc) -> first sc1 = or_else (first sc) (enabled_in head) -> selected sc1 = (if mu then or_else (selected sc) (chosen_in mu head) else or_else (chosen_in mu head) (selected sc)) ->
     markers sc1 = markers sc ++ (if mk then [(n, S (position sc))] else []) -> spans sc1 = spans sc -> q = fold_left (fun s t => scan_tree inf mu false di' da' t s) l sc1 ->
     scanned mu (head ++ (if da' then [] else flat_map (options inf di') l)) (n :: flat_map ids l) (T n l :: flat_map subs l) sc
       (if op && negb da then Scan (markers q) ((n, (S (position sc), position q)) :: spans q) (selected q) (first q) (position q) else q)).
  { intros sc1 q P1 P2 P3 P4 P5 ->. specialize (W di' da' sc1). destruct W as [W1 W2 W3 W4 (new & W5 & W6 & W7)].
    assert (Mk : marks (position sc) (n :: flat_map ids l) = (if mk then [(n, S (position sc))] else []) ++ marks (S (position sc)) (flat_map ids l)). { unfold marks. cbn [List.length seq combine filter fst]. fold mk. destruct mk; reflexivity. }
    set (q := fold_left _ l sc1) in *.
    assert (St : forall x ab, In (x, ab) new -> exists o, In o (T n l :: flat_map subs l) /\ root o = x /\ stands (position sc) (n :: flat_map ids l) o ab).
    { intros x ab Hx. destruct (W6 x ab Hx) as (o & Ho & Er & pre & post & E & E1 & E2). exists o. split; [now right|]. split; [exact Er|]. exists (n :: pre), post. rewrite E. cbn [app List.length]. split; [reflexivity|]. split; lia. }
    assert (S4 : markers q = markers sc ++ marks (position sc) (n :: flat_map ids l)) by (rewrite W4, P4, P1, Mk; symmetry; apply app_assoc).
    assert (S2 : first q = or_else (first sc) (enabled_in (head ++ (if da' then [] else flat_map (options inf di') l)))) by (rewrite W2, P2, enabled_app; symmetry; apply or_assoc).
    assert (S3 : selected q = (if mu then or_else (selected sc) (chosen_in mu (head ++ (if da' then [] else flat_map (options inf di') l))) else or_else (chosen_in mu (head ++ (if da' then [] else flat_map (options inf di') l))) (selected sc))).
    { rewrite W3, P3, chosen_app. destruct mu; [symmetry; apply or_assoc|apply or_assoc]. }
    destruct (op && negb da) eqn:Eop.
    - constructor; cbn [position first selected markers spans]; auto; [rewrite W1, P1; cbn; lia|]. exists ((n, (S (position sc), position q)) :: new). split; [rewrite W5, P5; reflexivity|]. split.
      + intros x ab [[= <- <-]|Hx]; [|now apply St]. exists (T n l). split; [now left|]. split; [reflexivity|]. exists [], []. rewrite app_nil_r. split; [reflexivity|]. cbn. split; lia.
      + intros o b Ho. apply in_app_iff in Ho as [Ho|Ho]; [|destruct (W7 o b Ho) as (ab & Hab); exists ab; now right]. unfold head in Ho. destruct Ho as [[= <- <-]|[]]. eexists. left. reflexivity.
    - constructor; auto; [rewrite W1, P1; cbn; lia|]. exists new. split; [rewrite W5, P5; reflexivity|]. split; [exact St|]. intros o b Ho. apply in_app_iff in Ho as [Ho|Ho]; [|exact (W7 o b Ho)]. unfold head in Ho. destruct Ho. }
  clear W Eos. eapply Q; [..|reflexivity].
  - destruct (op && negb da), mk; reflexivity.
  - unfold head. destruct (op && negb da); [|destruct mk; cbn [first enabled_in]; unfold enabled_in; cbn; now destruct (first sc)].
    unfold enabled_in. cbn [filter snd]. destruct mk; cbn [first]; (destruct (first sc); [reflexivity|]; cbn [or_else]; destruct di, (has_attr (u "disabled") (inf n)); reflexivity).
  - unfold head. destruct (op && negb da); [|destruct mk; cbn [selected]; unfold chosen_in; cbn; destruct mu; cbn; now destruct (selected sc)].
    unfold chosen_in. cbn [map fst filter root]. destruct mk; cbn [selected]; (destruct (has_attr (u "selected") (inf n)); destruct mu; cbn; now destruct (selected sc)).
  - destruct (op && negb da), mk; cbn [markers]; rewrite ?app_nil_r; reflexivity.
  - destruct (op && negb da), mk; reflexivity.
Qed.
(* the select itself *)
Lemma scan_select n l mu : name_is (u "select") (inf n) = true -> exists sc, scan_tree inf mu true false false (T n l) (Scan [] [] None None 0) = sc /\
  scanned mu (flat_map (options inf false) l) (flat_map ids l) (flat_map subs l) (Scan [] [] None None 1) sc.
Proof.
  intros Hs. eexists. split; [reflexivity|]. cbn [scan_tree negb andb]. assert (Nm : forall x, str_eqb (u "select") x = false -> name_is x (inf n) = false).
  { intros x Hx. destruct (inf n) as [m ns at_| |]; [|reflexivity|reflexivity]. cbn in *. apply StrFacts.str_eqb_eq in Hs. subst m. exact Hx. }
  rewrite (Nm (u "optgroup")), (Nm (u "datalist")) by reflexivity. cbn [orb andb].
  assert (W : forall sc, scanned mu (flat_map (options inf false) l) (flat_map ids l) (flat_map subs l) sc (fold_left (fun s t => scan_tree inf mu false false false t s) l sc)).
  { induction l as [|t l IHl]; intros sc; [apply scanned_nil|]. cbn [fold_left flat_map]. apply (scanned_app _ _ _ _ _ _ _ _ _ _ (scan_ok t mu false false sc) (IHl (scan_tree inf mu false false false t sc))). }
  apply W.
Qed.
End scan.
