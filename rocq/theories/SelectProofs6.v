(* the whole document, if no select is inside a select *)
From Coq Require Import List Arith Bool Lia.
From Verif Require Import Str StrFacts FinishModel FinishSpec FinishProofs SelectModel SelectSpec SelectProofs SelectProofs2 SelectProofs3 SelectProofs4 SelectProofs5.
Import ListNotations.
Open Scope list_scope. Open Scope nat_scope.

(* ---- only the nodes of the tree count ---- *)
Lemma options_ext f g off t : (forall x, In x (ids t) -> f x = g x) -> options f off t = options g off t.
Proof.
  revert off. induction t as [n l IH] using tree_ind'. rewrite Forall_forall in IH. intros off H. cbn [options]. rewrite (H n) by now left. f_equal. destruct (name_is _ _); [reflexivity|]. assert (H' : forall x, In x (flat_map ids l) -> f x = g x) by (intros x Hx; apply H; now right). clear H.
  generalize (off || name_is (u "optgroup") (g n) && has_attr (u "disabled") (g n)). intros b. induction l as [|t l IHl]; [reflexivity|]. cbn [flat_map] in *. rewrite IH, IHl; auto; [intros; apply IH; auto; now right|intros; apply H'; apply in_app_iff; now right|now left|intros; apply H'; apply in_app_iff; now left].
Qed.
Lemma choice_ext f g t : (forall x, In x (ids t) -> f x = g x) -> choice f t = choice g t.
Proof.
  intros H. unfold choice. assert (flat_map (options f false) (below t) = flat_map (options g false) (below t)) as ->.
  { destruct t as [n l]. cbn [below]. assert (H' : forall x, In x (flat_map ids l) -> f x = g x) by (intros x Hx; apply H; now right). clear H. induction l as [|t l IHl]; [reflexivity|]. cbn [flat_map] in *. rewrite (options_ext f g), IHl; [reflexivity|intros; apply H'; apply in_app_iff; now right|intros; apply H'; apply in_app_iff; now left]. }
  rewrite (H (root t)) by apply root_in. set (all := flat_map _ _).
  assert (filter (fun o => has_attr (u "selected") (f (root o))) (map fst all) = filter (fun o => has_attr (u "selected") (g (root o))) (map fst all)) as ->; [|reflexivity].
  assert (A : forall o, In o (map fst all) -> In (root o) (ids t)).
  { intros o Ho. apply in_map_iff in Ho as ([o' b] & <- & Ho). apply in_flat_map in Ho as (v & Hv & Ho). destruct (options_sub _ _ _ _ _ Ho) as [Hs _]. cbn [fst]. destruct t as [n l]. right. apply in_flat_map. exists v. split; [exact Hv|exact (subs_ids _ _ _ Hs (root_in o'))]. }
  revert A. generalize (map fst all). intros m A. induction m as [|o m IHm]; [reflexivity|]. cbn [filter]. rewrite (H (root o)) by (apply A; now left). rewrite IHm by (intros; apply A; now right). reflexivity.
Qed.
Lemma shown_ext f g o c full t v : (forall x, In x (ids t) -> f x = g x) -> shown f o c full t v -> shown g o c full t v.
Proof.
  revert v. induction t as [n l IH] using tree_ind'. rewrite Forall_forall in IH. intros v H S. inversion S as [? ? Ho|? ? Ho Hn|? ? Ho Hn Hf|? ? k Ho Hn F]; subst.
  - rewrite (view_ext f g) by exact H. now apply in_option.
  - rewrite (H n) by now left. apply marker; [exact Ho|]. rewrite <- (H n) by now left. exact Hn.
  - rewrite (H n) by now left. apply cut; auto. rewrite <- (H n) by now left. exact Hn.
  - rewrite (H n) by now left. apply other; [exact Ho|rewrite <- (H n) by (now left); exact Hn|]. assert (H' : forall x, In x (flat_map ids l) -> f x = g x) by (intros x Hx; apply H; now right). clear -F IH H'.
    induction F as [|t v l k Hs F IHF]; [constructor|]. cbn [flat_map] in H'. constructor; [apply IH; [now left|intros; apply H'; apply in_app_iff; now left|exact Hs]|]. apply IHF; [intros; apply IH; auto; now right|intros; apply H'; apply in_app_iff; now right].
Qed.
Lemma mirrored_ext f g full t k : (forall x, In x (ids t) -> f x = g x) -> mirrored f full t k -> mirrored g full t k.
Proof.
  intros H. unfold mirrored. rewrite (choice_ext f g t H). assert (H' : forall x, In x (flat_map ids (below t)) -> f x = g x) by (intros x Hx; apply H; destruct t; now right).
  assert (W : forall o c l k, (forall x, In x (flat_map ids l) -> f x = g x) -> Forall2 (shown f o c full) l k -> Forall2 (shown g o c full) l k).
  { clear. intros o c l k H F. induction F as [|t v l k Hs F IHF]; [constructor|]. cbn [flat_map] in H. constructor; [apply (shown_ext f); [intros; apply H; apply in_app_iff; now left|exact Hs]|apply IHF; intros; apply H; apply in_app_iff; now right]. }
  destruct (choice g t) as [c|] eqn:Ec; [|now apply W]. intros F. apply W; [exact H'|].
  assert (map (view f) (below c) = map (view g) (below c)) as <-; [|exact F]. apply map_ext_in. intros v Hv. apply view_ext. intros x Hx. apply H'. destruct (choice_in _ _ _ Ec) as (b & Hin). apply in_flat_map in Hin as (w & Hw & Hin). destruct (options_sub _ _ _ _ _ Hin) as [Hs _].
  apply in_flat_map. exists w. split; [exact Hw|]. apply (subs_ids _ _ _ Hs). destruct c as [r m]. right. apply in_flat_map. exists v. split; [exact Hv|exact Hx].
Qed.
Lemma cost_ext f g t : (forall x, In x (ids t) -> f x = g x) -> cost f t = cost g t.
Proof.
  intros H. unfold cost. rewrite (choice_ext f g t H). f_equal. assert (H' : forall x, In x (flat_map ids (below t)) -> f x = g x) by (intros x Hx; apply H; destruct t; now right). f_equal.
  revert H'. generalize (flat_map ids (below t)). intros m A. induction m as [|o m IHm]; [reflexivity|]. cbn [filter]. rewrite (A o) by now left. rewrite IHm by (intros; apply A; now right). reflexivity.
Qed.

(* ---- a tree without select is left alone ---- *)
Fixpoint nosel (v : seen) : Prop := let 'V i l := v in name_is (u "select") i = false /\ (fix all l := match l with [] => True | x :: r => nosel x /\ all r end) l.
Lemma nosel_V i l : nosel (V i l) <-> name_is (u "select") i = false /\ Forall nosel l.
Proof. cbn. assert (forall l, (fix all l := match l with [] => True | x :: r => nosel x /\ all r end) l <-> Forall nosel l) as W; [|now rewrite W]. induction l0 as [|x r IH]; [split; [constructor|auto]|]. rewrite IH. split; [intros [A B]; now constructor|intros A; inversion A; now split]. Qed.
Lemma view_nosel f t : (forall x, In x (ids t) -> name_is (u "select") (f x) = false) -> nosel (view f t).
Proof.
  induction t as [n l IH] using tree_ind'. rewrite Forall_forall in IH. intros H. cbn [view]. apply nosel_V. split; [apply H; now left|]. apply Forall_forall. intros v Hv. apply in_map_iff in Hv as (t & <- & Ht). apply IH; [exact Ht|]. intros x Hx. apply H. right. apply in_flat_map. eauto.
Qed.
Lemma joined_nosel l : Forall nosel l -> Forall nosel (joined l).
Proof.
  induction 1 as [|x l Hx _ IH]; [constructor|]. cbn [joined]. destruct x as [[| a|] k]; [now constructor| |now constructor]. destruct (joined l) as [|[[| b|] y] q]; [constructor; [exact Hx|constructor]|now constructor| |now constructor]. inversion IH; subst. constructor; [|assumption]. apply nosel_V in Hx as [_ Hx]. apply nosel_V. now split.
Qed.
Lemma shown_nosel f o c full t v : (forall x, In x (ids t) -> name_is (u "select") (f x) = false) -> Forall nosel c -> shown f o c full t v -> nosel v.
Proof.
  intros H Hc. revert v H. induction t as [n l IH] using tree_ind'. rewrite Forall_forall in IH. intros v H S. inversion S as [? ? Ho|? ? Ho Hn|? ? Ho Hn Hf|? ? k Ho Hn F]; subst.
  - now apply view_nosel.
  - apply nosel_V. split; [apply H; now left|exact Hc].
  - apply nosel_V. split; [apply H; now left|constructor].
  - apply nosel_V. split; [apply H; now left|]. assert (H' : forall x, In x (flat_map ids l) -> name_is (u "select") (f x) = false) by (intros x Hx; apply H; now right). clear -F IH H'.
    induction F as [|t v l k Hs F IHF]; [constructor|]. cbn [flat_map] in H'. constructor; [apply (IH t); [now left|intros; apply H'; apply in_app_iff; now left|exact Hs]|]. apply IHF; [intros; eapply IH; eauto; now right|intros; apply H'; apply in_app_iff; now right].
Qed.
Lemma mirrored_nosel f full t k : (forall x, In x (flat_map ids (below t)) -> name_is (u "select") (f x) = false) -> mirrored f full t k -> Forall nosel k.
Proof.
  intros H. unfold mirrored. assert (W : forall o c l k, Forall nosel c -> (forall x, In x (flat_map ids l) -> name_is (u "select") (f x) = false) -> Forall2 (shown f o c full) l k -> Forall nosel k).
  { clear. intros o c l k Hc H F. induction F as [|t v l k Hs F IHF]; [constructor|]. cbn [flat_map] in H. constructor; [apply (shown_nosel f o c full t); auto; intros; apply H; apply in_app_iff; now left|apply IHF; intros; apply H; apply in_app_iff; now right]. }
  destruct (choice f t) as [c|] eqn:Ec; [|intros F; refine (W _ _ _ _ _ H F); constructor]. intros F. refine (W _ _ _ _ _ H F). apply joined_nosel. apply Forall_forall. intros v Hv. apply in_map_iff in Hv as (w & <- & Hw). apply view_nosel. intros x Hx. apply H.
  destruct (choice_in _ _ _ Ec) as (b & Hin). apply in_flat_map in Hin as (z & Hz & Hin). destruct (options_sub _ _ _ _ _ Hin) as [Hs _]. apply in_flat_map. exists z. split; [exact Hz|]. apply (subs_ids _ _ _ Hs). destruct c as [r m]. right. apply in_flat_map. eauto.
Qed.

Section doc.
Variables dr un : list nat.
Lemma walk_id fuel : forall t s, size_of t <= fuel -> nosel (view (info s) t) -> walk fuel dr un t s = Some (t, s).
Proof.
  induction fuel as [|fuel IH]; intros [n l] s L H; [cbn in L; lia|]. cbn [view] in H. apply nosel_V in H as [Hn Hl]. rewrite walk_S. cbn [root]. rewrite Hn. destruct (is_elem _); [|reflexivity].
  assert (walks dr un fuel l s = Some (l, s)) as ->; [|reflexivity]. cbn [ids List.length] in L. apply le_S_n in L. clear Hn. induction l as [|t l IHl]; [reflexivity|]. cbn [walks flat_map map] in *. rewrite app_length in L. inversion Hl; subst. rewrite IH by (auto; lia). rewrite IHl by (auto; lia). reflexivity.
Qed.
Lemma walks_id fuel l s : sizes l <= fuel -> Forall nosel (map (view (info s)) l) -> walks dr un fuel l s = Some (l, s).
Proof. intros L Hl. induction l as [|t l IHl]; [reflexivity|]. cbn [walks flat_map map] in *. rewrite app_length in L. inversion Hl; subst. rewrite walk_id by (auto; lia). rewrite IHl by (auto; lia). reflexivity. Qed.

(* ---- the budget ---- *)
Lemma clone_remaining t : forall s, remaining (snd (clone t s)) = remaining s.
Proof.
  induction t as [n l IH] using tree_ind'. intros s. rewrite clone_T. cbn zeta. match goal with |- context [clones l ?x] => set (s1 := x) end. assert (W : forall s, remaining (snd (clones l s)) = remaining s).
  { clear s s1. induction IH as [|t l Ht _ IHl]; intros s; [reflexivity|]. cbn [clones]. specialize (Ht s). destruct (clone t s) as [c s1]. specialize (IHl s1). destruct (clones l s1) as [k s2]. cbn in *. congruence. }
  specialize (W s1). destruct (clones l s1) as [k s2]. cbn in *. rewrite W. reflexivity.
Qed.
Lemma copy_remaining kids : forall l s, remaining (snd (copy_in dr un kids l s)) = remaining s.
Proof.
  induction kids as [|k kids IH]; intros l s; [reflexivity|]. cbn [copy_in]. pose proof (clone_remaining k s) as Hc. destruct (clone k s) as [c s1]. pose proof (r_rem _ _ _ _ _ (record_spec dr un k c s1)) as Hr. set (s2 := record dr un k c s1) in *.
  assert (remaining (snd (append l c s2)) = remaining s2) as Ha. { unfold append. destruct (info s2 (root c)); try reflexivity. destruct l as [|p l0]; [reflexivity|]. destruct (info s2 (root p)); reflexivity. }
  destruct (append l c s2) as [l3 s3]. rewrite IH. cbn in *. congruence.
Qed.
Lemma fill_cost chosen span ms : forall t s t' s', fill_markers dr un chosen span ms t s = (t', s') -> remaining s <= remaining s' + List.length ms * csize chosen.
Proof.
  induction ms as [|[m pos] ms IH]; intros t s t' s' E; cbn [fill_markers] in E; [injection E as <- <-; lia|]. cbn [List.length Nat.mul].
  destruct (match span with Some (a, b) => _ | None => false end); [specialize (IH _ _ _ _ E); lia|]. destruct chosen as [[o kids]|]; [|specialize (IH _ _ _ _ E); lia]. destruct (Nat.leb_spec (sizes kids) (remaining s)) as [Le|Gt]; [|specialize (IH _ _ _ _ E); lia].
  destruct (copy_in dr un kids [] _) as [new s1] eqn:E1. pose proof (copy_remaining kids [] (St (info s) (next s) (drops s) (unwraps s) (remaining s - sizes kids))) as Hr. rewrite E1 in Hr. cbn in Hr. specialize (IH _ _ _ _ E). cbn [csize] in *. lia.
Qed.
Lemma project_cost n l s t' s' : name_is (u "select") (info s n) = true -> project_select dr un (T n l) s = (t', s') -> remaining s <= remaining s' + cost (info s) (T n l).
Proof.
  intros Hs E. unfold project_select in E. destruct (scan_select (info s) n l (has_attr (u "multiple") (info s (root (T n l)))) Hs) as (sc & Esc & [S1 S2 S3 S4 _]). rewrite Esc in E. clear Esc.
  set (mu := has_attr (u "multiple") (info s (root (T n l)))) in *. cbn [markers spans selected first position app] in S2, S3, S4. set (chosen := match selected sc with Some o => Some o | None => first sc end) in *.
  assert (Ech : chosen = choice (info s) (T n l)).
  { unfold chosen, choice. rewrite S2, S3. cbn [or_else below]. fold mu. unfold chosen_in, enabled_in. destruct mu; cbn [or_else]; [reflexivity|]. destruct (last_of _); reflexivity. }
  assert (E' : exists span, fill_markers dr un chosen span (markers sc) (T n l) s = (t', s')). { destruct (markers sc); [injection E as <- <-; exists None; reflexivity|eexists; exact E]. } destruct E' as (span & E').
  pose proof (fill_cost _ _ _ _ _ _ _ E') as C. unfold cost. cbn [below]. rewrite <- Ech. rewrite <- (marks_fst (info s) 1), map_length, <- S4. unfold csize in C. destruct chosen as [[r k]|]; exact C.
Qed.

(* ---- one pass over the document ---- *)
Variable allowed : str -> str -> list (str * str) -> bool.
Notation safe := (safe allowed). Notation origin_ok := (origin_ok allowed dr un).
Variables (inf0 : nat -> item) (n0 : nat) (full : bool).
Definition leafy (l : list tree) : Prop := forall v, In v (flat_map subtrees l) -> is_elem (inf0 (root v)) = false -> below v = [].
Definition unnested (l : list tree) : Prop := forall v, In v (flat_map subtrees l) -> name_is (u "select") (inf0 (root v)) = true -> forall x, In x (flat_map ids (below v)) -> name_is (u "select") (inf0 x) = false.
Definition costs (l : list tree) : nat := fold_right (fun t c => total_cost inf0 t + c) 0 l.
Record ready (l : list tree) (s : st) : Prop := Ready {
  y_nodup : NoDup (flat_map ids l); y_old : forall x, In x (flat_map ids l) -> x < n0; y_next : n0 <= next s; y_info : forall x, x < n0 -> info s x = inf0 x;
  y_leafy : leafy l; y_nested : unnested l; y_cost : full = true -> costs l <= remaining s;
  y_rec : forall x, In x dr \/ In x un -> recorded s x }.
Record done (l : list tree) (s : st) (l' : list tree) (s' : st) : Prop := Done {
  e_next : next s <= next s'; e_info : forall x, x < next s -> info s' x = info s x; e_old : forall x, In x (flat_map ids l') -> x < next s'; e_shown : Forall2 (doc_shown inf0 full) l (map (view (info s')) l');
  e_cost : remaining s <= remaining s' + costs l; e_keep : forall x, recorded s x -> recorded s' x;
  e_safe : (forall x, In x (flat_map ids l) -> origin_ok (St inf0 0 [] [] 0) x) -> forall x, In x (flat_map ids l') -> safe s' x }.
Lemma ready_cons t l s : ready (t :: l) s -> ready [t] s /\ (forall s', n0 <= next s' -> (forall x, x < n0 -> info s' x = info s x) -> remaining s <= remaining s' + costs [t] -> (forall x, recorded s x -> recorded s' x) -> ready l s').
Proof.
  intros [Y1 Y2 Y3 Y4 Y5 Y6 Y7 Y8]. cbn [flat_map] in *. apply nodup_app in Y1 as (Na & Nb & Dj). split.
  - constructor; auto; cbn [flat_map]; rewrite ?app_nil_r; auto.
    + intros x Hx. apply Y2. apply in_app_iff. now left.
    + intros v Hv. apply Y5. cbn [flat_map] in *. rewrite app_nil_r in Hv. apply in_app_iff. now left.
    + intros v Hv. apply Y6. cbn [flat_map] in *. rewrite app_nil_r in Hv. apply in_app_iff. now left.
    + intros H. specialize (Y7 H). unfold costs in *; cbn [fold_right] in *; lia.
  - intros s' Hn Hi Hc Hr. constructor; auto.
    + intros x Hx. apply Y2. apply in_app_iff. now right.
    + intros x Hx. rewrite Hi by exact Hx. auto.
    + intros v Hv. apply Y5. cbn [flat_map]. apply in_app_iff. now right.
    + intros v Hv. apply Y6. cbn [flat_map]. apply in_app_iff. now right.
    + intros H. specialize (Y7 H). unfold costs in *; cbn [fold_right] in *; lia.
Qed.
Lemma done_cons t l s t' s1 l' s2 : done [t] s [t'] s1 -> done l s1 l' s2 -> done (t :: l) s (t' :: l') s2.
Proof.
  intros A B. pose proof (e_next _ _ _ _ A). pose proof (e_next _ _ _ _ B). constructor.
  - lia.
  - intros x Hx. rewrite (e_info _ _ _ _ B) by lia. now apply (e_info _ _ _ _ A).
  - cbn [flat_map]. intros x Hx. apply in_app_iff in Hx as [Hx|Hx]; [|exact (e_old _ _ _ _ B x Hx)]. pose proof (e_old _ _ _ _ A x) as O1. cbn [flat_map] in O1. rewrite app_nil_r in O1. specialize (O1 Hx). lia.
  - cbn [map]. constructor; [|exact (e_shown _ _ _ _ B)]. pose proof (e_shown _ _ _ _ A) as F. inversion F as [|? ? ? ? F1 _]; subst. rewrite (view_ext (info s2) (info s1)); [exact F1|]. intros x Hx. apply (e_info _ _ _ _ B). apply (e_old _ _ _ _ A). cbn [flat_map]. now rewrite app_nil_r.
  - pose proof (e_cost _ _ _ _ A). pose proof (e_cost _ _ _ _ B). unfold costs in *; cbn [fold_right] in *; lia.
  - intros x Hx. apply (e_keep _ _ _ _ B), (e_keep _ _ _ _ A), Hx.
  - intros Ho x Hx. cbn [flat_map] in Ho, Hx. apply in_app_iff in Hx as [Hx|Hx].
    + assert (Sx : safe s1 x). { apply (e_safe _ _ _ _ A); cbn [flat_map]; rewrite ?app_nil_r; [intros y Hy; apply Ho; apply in_app_iff; now left|exact Hx]. }
      destruct Sx as [Sx|Sx]; [left|right; now apply (e_keep _ _ _ _ B)]. rewrite (e_info _ _ _ _ B); [exact Sx|]. apply (e_old _ _ _ _ A). cbn [flat_map]. now rewrite app_nil_r.
    + apply (e_safe _ _ _ _ B); [|exact Hx]. intros y Hy. apply Ho. apply in_app_iff. now right.
Qed.
Lemma done_nil s : done [] s [] s.
Proof. constructor; cbn; auto; try lia. Qed.
Lemma doc_walk fuel : forall t s, size_of t + remaining s <= fuel -> ready [t] s -> exists t' s', walk fuel dr un t s = Some (t', s') /\ passed allowed (next s) t s t' s' /\ done [t] s [t'] s'.
Proof.
  induction fuel as [|fuel IH]; intros [n l] s L Y; [cbn in L; lia|].
  destruct (walk_passed allowed dr un (S fuel) (T n l) s L) as (t' & s' & E & P); [pose proof (y_nodup _ _ Y) as Q; cbn [flat_map] in Q; now rewrite app_nil_r in Q|intros x Hx; pose proof (y_next _ _ Y); pose proof (y_old _ _ Y x) as Q; cbn [flat_map] in Q; rewrite app_nil_r in Q; specialize (Q Hx); lia|].
  exists t', s'. split; [exact E|]. split; [exact P|]. rewrite walk_S in E. destruct Y as [Y1 Y2 Y3 Y4 Y5 Y6 Y7 Y8]. cbn [flat_map] in Y1, Y2. rewrite app_nil_r in Y1, Y2. cbn [root] in E. assert (En : info s n = inf0 n) by (apply Y4, Y2; now left). rewrite En in E.
  assert (Old : forall x, In x (ids t') -> x < next s'). { intros x Hx. pose proof (p_next _ _ _ _ _ _ P). destruct (p_ids _ _ _ _ _ _ P x Hx) as [H'|H']; [specialize (Y2 x H'); lia|lia]. }
  assert (Fin : doc_shown inf0 full (T n l) (view (info s') t') -> remaining s <= remaining s' + total_cost inf0 (T n l) -> ((forall x, In x (ids (T n l)) -> origin_ok (St inf0 0 [] [] 0) x) -> forall x, In x (ids t') -> safe s' x) -> done [T n l] s [t'] s').
  { intros D C S. constructor; [exact (p_next _ _ _ _ _ _ P)|exact (p_info _ _ _ _ _ _ P)| | | |exact (p_keep _ _ _ _ _ _ P)|].
    - cbn [flat_map]. rewrite app_nil_r. exact Old.
    - cbn [map]. constructor; [exact D|constructor].
    - cbn [costs fold_right]. lia.
    - cbn [flat_map]. rewrite !app_nil_r. exact S. }
  assert (Start : (forall x, In x (ids (T n l)) -> origin_ok (St inf0 0 [] [] 0) x) -> forall x, In x (ids (T n l)) -> origin_ok s x /\ safe s x).
  { intros Ho x Hx. specialize (Ho x Hx). assert (origin_ok s x) as O. { unfold SelectProofs.origin_ok in *. cbn [info] in Ho. rewrite Y4; [exact Ho|apply Y2, Hx]. } split; [exact O|]. destruct O as [O|O]; [now left|right; now apply Y8]. }
  cbn [ids] in Y1. inversion Y1 as [|? ? Nn Nl]; subst. destruct (is_elem (inf0 n)) eqn:Ee.
  - destruct (name_is (u "select") (inf0 n)) eqn:Es.
    + destruct (project_select dr un (T n l) s) as [[n1 l1] s1] eqn:Ep.
      assert (Bs : forall x, In x (ids (T n l)) -> x < next s) by (intros x Hx; specialize (Y2 x Hx); lia).
      assert (Is : forall x, In x (ids (T n l)) -> info s x = inf0 x) by (intros x Hx; apply Y4, Y2, Hx).
      destruct (project_view dr un n l s (T n1 l1) s1 full) as (l' & [= -> ->] & M); [now rewrite En|exact Y1|exact Bs| |exact Ep|].
      { intros Hf. specialize (Y7 Hf). cbn [costs fold_right total_cost] in Y7. rewrite Es in Y7. rewrite (cost_ext _ inf0) by exact Is. lia. }
      apply (mirrored_ext _ inf0) in M; [|exact Is].
      assert (Ns : forall x, In x (flat_map ids l) -> name_is (u "select") (inf0 x) = false). { apply (Y6 (T n l)); [cbn; now left|exact Es]. }
      destruct (project_spec allowed dr un (next s) _ _ _ _ Ep) as [P1 S1]; [lia|exact Y1|exact Bs|].
      rewrite walks_id in E; [|pose proof (p_size _ _ _ _ _ _ P1) as Sz; cbn [ids List.length] in Sz, L; lia|exact (mirrored_nosel inf0 full (T n l) _ Ns M)]. injection E as <- <-. apply Fin.
      * cbn [view]. rewrite (p_info _ _ _ _ _ _ P1) by (apply Bs; now left). rewrite En. now apply d_select.
      * cbn [total_cost]. rewrite Es. rewrite <- (cost_ext (info s)) by exact Is. apply (project_cost _ _ _ _ _ ltac:(now rewrite En) Ep).
      * intros Ho. apply S1; intros x Hx; now apply Start.
    + assert (W : forall l s, sizes l + remaining s <= fuel -> ready l s -> exists l' s', walks dr un fuel l s = Some (l', s') /\ done l s l' s').
      { clear -IH. induction l as [|t l IHl]; intros s L Y; [exists [], s; split; [reflexivity|apply done_nil]|]. cbn [flat_map walks] in *. rewrite app_length in L. destruct (ready_cons _ _ _ Y) as [Yt Yl].
        destruct (IH t s ltac:(lia) Yt) as (t1 & s1 & -> & P1 & D1). pose proof (p_size _ _ _ _ _ _ P1). pose proof (y_next _ _ Y). pose proof (p_next _ _ _ _ _ _ P1). pose proof (p_sum _ _ _ _ _ _ P1).
        destruct (IHl s1) as (l2 & s2 & -> & D2); [lia|apply Yl; [lia|intros x Hx; apply (p_info _ _ _ _ _ _ P1); lia|exact (e_cost _ _ _ _ D1)|exact (e_keep _ _ _ _ D1)]|]. exists (t1 :: l2), s2. split; [reflexivity|]. exact (done_cons _ _ _ _ _ _ _ D1 D2). }
      destruct (W l s) as (l2 & s2 & E2 & D2).
      * cbn [ids List.length] in L. lia.
      * constructor; auto.
        -- intros x Hx. apply Y2. now right.
        -- intros v Hv. apply Y5. cbn [flat_map subtrees]. rewrite app_nil_r. now right.
        -- intros v Hv. apply Y6. cbn [flat_map subtrees]. rewrite app_nil_r. now right.
        -- intros Hf. specialize (Y7 Hf). cbn [costs fold_right total_cost] in Y7. rewrite Es in Y7. unfold costs. lia.
      * rewrite E2 in E. injection E as <- <-. apply Fin.
        -- cbn [view]. rewrite (p_info _ _ _ _ _ _ P) by (specialize (Y2 n (or_introl eq_refl)); lia). rewrite En. apply d_other; [exact Es|exact (e_shown _ _ _ _ D2)].
        -- cbn [total_cost]. rewrite Es. exact (e_cost _ _ _ _ D2).
        -- intros Ho x [<-|Hx].
           ++ destruct (Start Ho n (or_introl eq_refl)) as [_ [Sf|Sr]]; [left|right; now apply (p_keep _ _ _ _ _ _ P)]. rewrite (p_info _ _ _ _ _ _ P) by (specialize (Y2 n (or_introl eq_refl)); lia). exact Sf.
           ++ apply (e_safe _ _ _ _ D2); [|exact Hx]. intros y Hy. apply Ho. now right.
  - injection E as <- <-. pose proof (Y5 (T n l) ltac:(cbn; now left) Ee) as El. cbn [below] in El. subst l. assert (Es : name_is (u "select") (inf0 n) = false) by (destruct (inf0 n); [discriminate|reflexivity|reflexivity]). apply Fin.
    + cbn [view map]. rewrite En. apply d_other; [exact Es|constructor].
    + lia.
    + intros Ho x Hx. now apply Start.
Qed.
(* the children of the root, from the last to the first *)
Lemma doc_walk_all fuel : forall l s, sizes l + remaining s <= fuel -> ready l s -> exists l' s', walk_all fuel dr un l s = Some (l', s') /\ done l s l' s' /\ sizes l' + remaining s' <= sizes l + remaining s.
Proof.
  induction l as [|t l IHl]; intros s L Y; [exists [], s; split; [reflexivity|]; split; [apply done_nil|lia]|]. cbn [flat_map walk_all] in *. rewrite app_length in *.
  assert (Yl : ready l s). { destruct Y as [Y1 Y2 Y3 Y4 Y5 Y6 Y7 Y8]. cbn [flat_map] in *. apply nodup_app in Y1 as (Na & Nb & Dj). constructor; auto.
    - intros x Hx. apply Y2. apply in_app_iff. now right.
    - intros v Hv. apply Y5. cbn [flat_map]. apply in_app_iff. now right.
    - intros v Hv. apply Y6. cbn [flat_map]. apply in_app_iff. now right.
    - intros H. specialize (Y7 H). unfold costs in *; cbn [fold_right] in *; lia. }
  destruct (IHl s ltac:(lia) Yl) as (l1 & s1 & -> & D1 & Z1). pose proof (e_next _ _ _ _ D1). pose proof (y_next _ _ Y).
  assert (Yt : ready [t] s1). { destruct Y as [Y1 Y2 Y3 Y4 Y5 Y6 Y7 Y8]. cbn [flat_map] in *. apply nodup_app in Y1 as (Na & Nb & Dj). constructor; cbn [flat_map]; rewrite ?app_nil_r; auto.
    - intros x Hx. apply Y2. apply in_app_iff. now left.
    - lia.
    - intros x Hx. rewrite (e_info _ _ _ _ D1) by lia. now apply Y4.
    - intros v Hv. apply Y5. cbn [flat_map] in *. rewrite app_nil_r in Hv. apply in_app_iff. now left.
    - intros v Hv. apply Y6. cbn [flat_map] in *. rewrite app_nil_r in Hv. apply in_app_iff. now left.
    - intros H'. specialize (Y7 H'). pose proof (e_cost _ _ _ _ D1). unfold costs in *; cbn [fold_right] in *; lia.
    - intros x Hx. apply (e_keep _ _ _ _ D1). auto. }
  destruct (doc_walk fuel t s1 ltac:(lia) Yt) as (t2 & s2 & -> & P2 & D2). exists (t2 :: l1), s2. split; [reflexivity|]. cbn [flat_map]. rewrite app_length. split; [|pose proof (p_size _ _ _ _ _ _ P2); lia].
  pose proof (e_next _ _ _ _ D2). constructor.
  - lia.
  - intros x Hx. rewrite (e_info _ _ _ _ D2) by lia. now apply (e_info _ _ _ _ D1).
  - cbn [flat_map]. intros x Hx. apply in_app_iff in Hx as [Hx|Hx]; [apply (e_old _ _ _ _ D2); cbn [flat_map]; now rewrite app_nil_r|pose proof (e_old _ _ _ _ D1 x Hx); lia].
  - cbn [map]. pose proof (e_shown _ _ _ _ D2) as F. inversion F as [|? ? ? ? F1 _]; subst. constructor; [exact F1|].
    assert (map (view (info s2)) l1 = map (view (info s1)) l1) as ->; [|exact (e_shown _ _ _ _ D1)]. apply map_ext_in. intros v Hv. apply view_ext. intros x Hx. apply (e_info _ _ _ _ D2). apply (e_old _ _ _ _ D1). apply in_flat_map. eauto.
  - pose proof (e_cost _ _ _ _ D1). pose proof (e_cost _ _ _ _ D2). unfold costs in *; cbn [fold_right] in *; lia.
  - intros x Hx. apply (e_keep _ _ _ _ D2), (e_keep _ _ _ _ D1), Hx.
  - intros Ho x Hx. cbn [flat_map] in Ho, Hx. apply in_app_iff in Hx as [Hx|Hx].
    + apply (e_safe _ _ _ _ D2); cbn [flat_map]; rewrite ?app_nil_r; [intros y Hy; apply Ho; apply in_app_iff; now left|exact Hx].
    + assert (Sx : safe s1 x) by (apply (e_safe _ _ _ _ D1); [intros y Hy; apply Ho; apply in_app_iff; now right|exact Hx]). destruct Sx as [Sx|Sx]; [left|right; now apply (e_keep _ _ _ _ D2)]. rewrite (e_info _ _ _ _ D2); [exact Sx|]. exact (e_old _ _ _ _ D1 x Hx).
Qed.
End doc.
