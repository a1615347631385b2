(* C67: the start tag table *)
From Coq Require Import List Arith Bool String Lia.
From Verif Require Import Str StrFacts.
From Verif Require Import AaaModel GuardModel CloseModel CloseSpec CloseProofs1 CloseProofs2 CloseProofs3 CloseProofs4 CloseProofs5 CloseProofs6 CloseProofs7 TableModel TableSpec TableProofs1 TableProofs2 TableProofs3 TableProofs4 TableProofs5 TableProofs6 TableProofs7.
Import ListNotations.
Open Scope string_scope. Open Scope list_scope. Open Scope nat_scope.

Lemma known_suffix : forall a l, Forall known (a ++ l) -> Forall known l.
Proof. intros a l H. apply Forall_app in H. tauto. Qed.
(* closing a p commutes with leaving foreign content *)
Lemma pclose_known : forall l, Forall known l -> sound_top l = true -> chained l -> pclose l = close_p l.
Proof.
  intros l K S C. rewrite pclose_cut, close_p_cut. unfold cut. f_equal. apply agree.
  assert (Forall (fun e => html e = true \/ point e = true) (upper l)) as U by (apply upper_sound; [exact C|right; exact S]).
  assert (Forall known (upper l)) as K' by (apply upper_sub; exact K). revert U K'. generalize (upper l). intros m U K'. induction U as [|e m He U IH]; [constructor|]. inversion K' as [|? ? Ke K'']; subst. constructor; [|exact (IH K'')].
  unfold agrees, pbound. destruct (html e) eqn:H.
  - unfold named, is. rewrite H. split; [reflexivity|]. split; [apply scope_html; [exact H|concrete]|]. intros P. rewrite (point_foreign e P) in H. discriminate.
  - destruct He as [He|He]; [discriminate|]. rewrite (known_foreign_name (u "p") e Ke H) by concrete. unfold is. rewrite H. cbn [andb]. rewrite boundary_point, (ends_foreign _ e H), He. auto.
Qed.
Lemma leave_parts : forall l, exists r, l = r ++ leave_foreign l /\ Forall (fun e => html e = false /\ point e = false) r.
Proof.
  induction l as [|e l [r [E F]]]; [exists []; split; [reflexivity|constructor]|]. cbn [leave_foreign]. destruct (html e || point e) eqn:X; [exists []; split; [reflexivity|constructor]|].
  apply orb_false_iff in X. exists (e :: r). split; [cbn [app]; f_equal; exact E|constructor; assumption].
Qed.
Lemma leave_sound_top : forall l, bottom l -> sound_top (leave_foreign l) = true.
Proof. intros l [a ->]. induction a as [|e a IH]; [reflexivity|]. cbn [app leave_foreign]. destruct (html e || point e) eqn:X; [cbn [sound_top]; exact X|exact IH]. Qed.
Lemma pclose_leave : forall l, Forall known l -> bottom l -> chained l -> leave_foreign (pclose l) = close_p (leave_foreign l).
Proof.
  intros l K B C. destruct (leave_parts l) as (r & E & F). set (w := leave_foreign l) in *. assert (sound_top w = true) as S by (apply leave_sound_top; exact B).
  assert (Forall known w) as Kw by (rewrite E in K; exact (known_suffix _ _ K)). assert (chained w) as Cw by (apply (chained_suffix w l); [exists r; exact E|exact C]). assert (bottom w) as Bw by (apply bottom_leave; exact B).
  rewrite <- (pclose_known w Kw S Cw). rewrite !pclose_cut.
  assert (find_p (named (u "p")) pbound l = find_p (named (u "p")) pbound w) as X.
  { rewrite E. rewrite E in K. apply Forall_app in K as [K _]. apply find_skip. clear E. induction F as [|e r [H P] F IH]; [constructor|]. inversion K; subst. constructor; [|apply IH; assumption]. split; [apply known_foreign_name; (assumption || concrete)|].
    unfold pbound. rewrite H, boundary_point. exact P. }
  unfold cut. rewrite X. destruct (find_p (named (u "p")) pbound w) as [t|] eqn:Y; cbn [or_same]; [|reflexivity]. apply leave_sound.
  refine (find_sound _ _ w t Cw Bw _ eq_refl eq_refl Y). intros e Ie Pe. destruct (html e) eqn:H; [reflexivity|]. rewrite Forall_forall in Kw. rewrite (known_foreign_name (u "p") e (Kw e Ie) H) in Pe by concrete. discriminate.
Qed.
Lemma sound_close_p : forall l, bottom l -> chained l -> sound_top l = true -> sound_top (close_p l) = true.
Proof.
  intros l B C S. rewrite close_p_cut. unfold cut. destruct (find_p _ _ l) as [t|] eqn:E; [|exact S]. cbn [or_same]. refine (find_sound _ _ l t C B _ eq_refl eq_refl E). intros e _ H. exact (is_html _ _ H).
Qed.
Lemma after_single : forall l, single_p l -> in_scope (is "p") ["button"] (close_p l) = false.
Proof.
  intros l S. rewrite close_p_cut. unfold cut. destruct (find_p (is "p") (ends_scope ["button"]) l) as [t|] eqn:E; cbn [or_same]; [|apply find_none; exact E].
  destruct (find_parts _ _ _ _ E) as (a & e & -> & P & _). apply single_suffix in S. destruct S as [S _]. exact (S P).
Qed.
(* what a search cuts off is content, if it does not find what it looks for below *)
Lemma cut_content : forall p b c k, find_p p b k = None -> exists x c', c = x ++ c' /\ cut p b (c ++ k) = c' ++ k.
Proof.
  intros p b c k N. unfold cut. induction c as [|e c IH]; [exists [], []; cbn [app]; rewrite N; auto|]. cbn [app find_p]. destruct (p e).
  - exists [e], c. auto.
  - destruct (b e); [exists [], (e :: c); auto|]. destruct IH as (x & c' & -> & H). destruct (find_p p b ((x ++ c') ++ k)) as [t|] eqn:E; cbn [or_same] in *.
    + exists (e :: x), c'. auto.
    + exists [], (e :: x ++ c'). auto.
Qed.
Lemma leave_content : forall c k, sound_top k = true -> exists x c', c = x ++ c' /\ leave_foreign (c ++ k) = c' ++ k.
Proof.
  intros c k S. induction c as [|e c (x & c' & -> & IH)]; [exists [], []; cbn [app]; rewrite (leave_sound k S); auto|]. cbn [app leave_foreign]. destruct (html e || point e); [exists [], (e :: x ++ c'); auto|]. exists (e :: x), c'. auto.
Qed.
Lemma seg_p : forall s k p b, In s segments -> (forall n, in_strs (u n) tens = true -> p (nd n) = false) -> b (nd "table") = true -> find_p p b (s ++ k) = None.
Proof.
  intros s k p b I P B. apply find_none. assert (forall x, reaches p b (nd "table" :: x) = false) as T by (intros x; cbn [reaches]; rewrite B, P by concrete; reflexivity).
  assert (forall s' x, Forall (fun e => p e = false) s' -> reaches p b (s' ++ nd "table" :: x) = false) as G.
  { intros s' x F. induction F as [|e s' Pe F IH]; [apply T|]. cbn [app reaches]. rewrite Pe, IH. apply andb_false_r. }
  segs I; match goal with |- reaches p b (?s ++ k) = false => idtac | |- reaches p b ?l = false => idtac end;
  first [ apply T | apply (G [_] k) | apply (G [_; _] k) | apply (G [_; _; _] k) ]; repeat (constructor; [apply P; concrete|]); constructor.
Qed.
Lemma body_p : forall p b, p (nd "body") = false -> p (nd "html") = false -> find_p p b body_open = None.
Proof. intros p b A B. cbn [find_p body_open]. change (El (u "body") Html false) with (nd "body"). change (El (u "html") Html false) with (nd "html"). rewrite A, B. destruct (b (nd "body")), (b (nd "html")); reflexivity. Qed.
Lemma ten_not_p : forall n, in_strs (u n) tens = true -> named (u "p") (nd n) = false /\ is "p" (nd n) = false.
Proof.
  intros n I. unfold named, is. cbn [nd node en html es andb]. destruct (str_eqb (u n) (u "p")) eqn:E; [|auto]. apply str_eqb_eq in E. rewrite E in I. vm_compute in I. discriminate I.
Qed.
(* the code, table tags *)
Definition table_cut (l : stack) : stack :=
  let table := last_pos (named (u "table")) l in
  let none n := match find_before (u n) bound_table l with Some _ => false | None => true end in
  if negb (table =? 0) && none "td" && none "th" && none "caption" then keep (table - 1) l else l.
Lemma table_unfold : forall q o sc s, table_start q o (u "table") sc s =
  let s1 := group_step (u "table") s in let l := table_cut (if q then sk s1 else pclose (sk s1)) in put (u "table") true sc (with_sk l s1).
Proof.
  intros q o sc s. unfold table_start. fold (group_step (u "table") s). generalize (group_step (u "table") s). clear s. intros [l g f]. cbv zeta. cbn [sk colg fm].
  change (in_strs (u "table") (map u ["td"; "th"; "tr"])) with false. change (in_strs (u "table") breakout_names) with true. change (str_eqb (u "table") (u "table")) with true. rewrite !andb_false_r. cbn [andb negb]. unfold with_sk. cbn [sk colg fm].
  assert (repair q (u "table") l = if q then l else pclose l) as ->.
  { unfold repair. change (in_strs (u "table") p_closing) with true. change (str_eqb (u "table") (u "table")) with true. change (str_eqb (u "table") (u "li")) with false. change (in_strs (u "table") (map u ["dd"; "dt"])) with false. change (in_strs (u "table") headings) with false. cbn [andb]. destruct q; reflexivity. }
  unfold table_cut. generalize (if q then l else pclose l). intros m. cbv zeta.
  destruct (negb (last_pos (named (u "table")) m =? 0) && match find_before (u "td") bound_table m with Some _ => false | None => true end && match find_before (u "th") bound_table m with Some _ => false | None => true end && match find_before (u "caption") bound_table m with Some _ => false | None => true end); reflexivity.
Qed.
Lemma put_table_top : forall sc l g f, bottom l -> put (u "table") true sc (St l g f) = (St (nd "table" :: leave_foreign l) g f, [(nd "table", leave_foreign l)]).
Proof.
  intros sc l g f B. unfold put. cbn [sk]. rewrite (insert_ns (u "table") true false sc l Html (leave_foreign l)) by (rewrite (ns_breaks (u "table") l ltac:(concrete) B); reflexivity).
  unfold opened. change (void_element (u "table")) with false. reflexivity.
Qed.
Lemma put_table_sound : forall sc l g f, sound_top l = true -> put (u "table") true sc (St l g f) = (St (nd "table" :: l) g f, [(nd "table", l)]).
Proof.
  intros sc l g f S. unfold put. cbn [sk]. rewrite (insert_ns (u "table") true false sc l Html l) by (rewrite ns_html_text by (apply sound_ht; [exact S|concrete]); reflexivity).
  unfold opened. change (void_element (u "table")) with false. reflexivity.
Qed.
