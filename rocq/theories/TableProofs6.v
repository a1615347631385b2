(* C67: start tags, other than table *)
From Coq Require Import List Arith Bool String Lia.
From Verif Require Import Str StrFacts.
From Verif Require Import AaaModel GuardModel CloseModel CloseSpec CloseProofs1 CloseProofs2 CloseProofs3 CloseProofs4 CloseProofs5 CloseProofs6 CloseProofs7 TableModel TableSpec TableProofs1 TableProofs2 TableProofs3 TableProofs4 TableProofs5.
Import ListNotations.
Open Scope string_scope. Open Scope list_scope. Open Scope nat_scope.

Definition group_step (n : str) (s : st) : st :=
  if foreign_current (sk s) then s
  else if str_eqb n (u "colgroup") then St (pop_if [u "colgroup"] (sk s)) true (fm s)
  else if colg s && negb (str_eqb n (u "col")) then St (pop_if [u "colgroup"] (sk s)) false (fm s)
  else s.
Definition hack (n : str) (l : stack) : bool :=
  in_strs n (map u ["td"; "th"; "tr"]) && (last_pos (named (u "table")) l =? 0) && negb (foreign_current l) && existsb (fun e => negb (html e)) l.
Lemma with_same : forall s, with_sk (sk s) s = s. Proof. intros [l g f]. reflexivity. Qed.
Lemma start_nine : forall q o n sc s, one_of nine n = true -> html_text n (sk (group_step n s)) = true -> hack n (sk (group_step n s)) = false ->
  table_start q o n sc s = structured o n sc (group_step n s).
Proof.
  intros q o n sc s N H K. unfold table_start. fold (group_step n s). generalize dependent (group_step n s). clear s. intros s H K. cbv zeta. rewrite H. unfold hack in K. rewrite (nine_breaks n N).
  cbn [andb negb]. rewrite K. assert (str_eqb n (u "table") = false) as T by (names N; reflexivity). rewrite T. cbn [negb andb]. rewrite (ten_repair q n _ N), with_same. reflexivity.
Qed.
Lemma start_foreign : forall q o n sc s e t, one_of nine n = true -> sk s = e :: t -> by_html_rules n (sk s) = false ->
  table_start q o n sc s = (with_sk (fst (opened n false sc (es e) (sk s))) s, snd (opened n false sc (es e) (sk s))).
Proof.
  intros q o n sc s e t N E R. rewrite (ten_rules n _ (nine_ten n N)) in R. assert (html e = false) as He by (rewrite E in R; cbn [html_text] in R; destruct (html e); [discriminate R|reflexivity]).
  unfold table_start. assert (foreign_current (sk s) = true) as F by (rewrite E; cbn [foreign_current]; rewrite He; reflexivity). rewrite F. cbv zeta. rewrite R, (nine_breaks n N). cbn [andb negb].
  assert (str_eqb n (u "table") = false) as T by (names N; reflexivity). rewrite T. unfold put.
  rewrite (insert_ns n false false sc (sk s) (es e) (sk s)).
  2:{ rewrite E in *. unfold namespace_for. cbn [html_text] in R. rewrite He in *. cbn [orb] in R. apply orb_false_iff in R as [R1 R2]. rewrite R1, R2.
      assert ((match es e with Math => named (u "annotation-xml") e && str_eqb n (u "svg") | _ => false end) = false) as ->; [|reflexivity].
      assert (str_eqb n (u "svg") = false) as -> by (names N; reflexivity). rewrite andb_false_r. destruct (es e); reflexivity. }
  unfold opened. destruct (es e) eqn:Es; [unfold html in He; rewrite Es in He; discriminate He| |]; unfold with_sk; destruct s as [l g f]; cbn [sk colg fm fst snd html es negb andb]; reflexivity.
Qed.
(* no table is open *)
Lemma table_pos_none : forall c, plains c -> last_pos (named (u "table")) (c ++ body_open) = 0.
Proof. intros c P. rewrite skip_last by (assumption || concrete). reflexivity. Qed.
Lemma plains_end : forall c, plains c -> plains (c ++ body_open).
Proof. intros c P. apply Forall_app. split; [exact P|]. repeat constructor. Qed.
Lemma plain_current : forall L l, plains l -> sub L tens = true -> current_in L l = false.
Proof. intros L [|e l] P S; [reflexivity|]. inversion P; subst. apply plain_in; assumption. Qed.
Lemma none_until : forall n l, plains l -> in_strs n tens = true -> close_until n bound_table l = None.
Proof. intros n l P I. rewrite <- (app_nil_r l). rewrite skip_until by assumption. reflexivity. Qed.
Lemma none_cell : forall l, plains l -> find_cell l = None.
Proof.
  intros l P. induction P as [|e t Pe Pt IH]; [reflexivity|]. cbn [find_cell]. rewrite (plain_named _ e Pe) by concrete. rewrite (plain_in _ e Pe) by concrete. exact IH.
Qed.
Lemma none_section : forall l, plains l -> find_section l = None.
Proof.
  intros l P. induction P as [|e t Pe Pt IH]; [reflexivity|]. cbn [find_section]. rewrite !(fun n => plain_named n e Pe) by concrete. rewrite !(fun L => plain_in L e Pe) by concrete. exact IH.
Qed.
Lemma none_scoped : forall n l, plains l -> in_strs n tens = true -> find_scoped n l = None.
Proof.
  intros n l P I. induction P as [|e t Pe Pt IH]; [reflexivity|]. cbn [find_scoped]. rewrite !(fun n => plain_named n e Pe) by (assumption || concrete). rewrite !andb_false_r. exact IH.
Qed.
Lemma none_before : forall n B l, plains l -> in_strs n tens = true -> find_before n B l = None.
Proof.
  intros n B l P I. rewrite find_before_p. apply find_none. induction P as [|e t Pe Pt IH]; [reflexivity|]. cbn [reaches]. rewrite (plain_named n e Pe I). cbn [orb]. rewrite IH. apply andb_false_r.
Qed.
Lemma none_last : forall n l, plains l -> in_strs n tens = true -> last_pos (named n) l = 0.
Proof. intros n l P I. induction P as [|e t Pe Pt IH]; [reflexivity|]. cbn [last_pos]. rewrite (plain_named n e Pe I). exact IH. Qed.
Lemma none_structured : forall o n sc l g f, orders o -> plains l -> one_of nine n = true -> structured o n sc (St l g f) = (St l g f, []).
Proof.
  intros o n sc l g f O P N. unfold structured. rewrite repair_eq. cbn [sk]. rewrite none_last by (assumption || concrete). unfold selected. cbn [Nat.eqb negb andb]. unfold with_sk. cbn [sk colg fm].
  assert (repair_rest o n 0 (St l g f) = (St l g f, [])) as ->.
  { unfold repair_rest. cbv zeta. change (0 =? 0) with true. cbv iota. unfold close_cell. cbn [sk]. rewrite (none_cell l P). unfold close_row, close_stray. cbn [sk]. rewrite (none_until _ l P) by concrete. cbn [or_same].
    assert (close_sections o l = l) as SC by (apply sections_none; apply Forall_forall; intros x X; apply none_until; [exact P|apply section_ten; exact (orders_in o x O X)]).
    unfold with_sk. cbn [sk colg fm]. rewrite SC, (none_section l P). cbn [or_same]. rewrite (none_before _ bound_table l P) by concrete. cbn [sk].
    rewrite !(plain_current _ l P) by concrete. rewrite (none_last _ l P) by concrete.
    names N; cbn [negb andb orb]; reflexivity. }
  cbn [sk]. assert (fits n l = false) as ->; [|reflexivity]. unfold fits. rewrite !(plain_current _ l P) by concrete. rewrite andb_false_r.
  names N; reflexivity.
Qed.
Lemma current_body : forall c, plains c -> foreign_current (c ++ body_open) = false -> current_in [u "colgroup"] (c ++ body_open) = false.
Proof. intros c P _. apply plain_current; [apply plains_end; exact P|concrete]. Qed.
Lemma pop_if_none : forall L l, current_in L l = false -> pop_if L l = l.
Proof. intros L l H. unfold pop_if. rewrite H. reflexivity. Qed.
Lemma group_step_plain : forall n l g f, current_in [u "colgroup"] l = false -> exists g', group_step n (St l g f) = St l g' f.
Proof.
  intros n l g f C. unfold group_step. cbn [sk colg fm]. rewrite (pop_if_none _ _ C). destruct (foreign_current l); [eauto|]. destruct (str_eqb n (u "colgroup")); [eauto|]. destruct (g && negb (str_eqb n (u "col"))); eauto.
Qed.
Lemma clean_suffix : forall c l, all_content c -> clean (c ++ l) = true -> clean l = true.
Proof.
  induction c as [|e c IH]; intros l C K; [exact K|]. inversion C as [|? ? Ce Cc]; subst. cbn [clean app] in K. rewrite (content_is "table" e Ce) in K by concrete. cbn [orb] in K. apply andb_true_iff in K as [_ K]. exact (IH l Cc K).
Qed.
Lemma clean_plains : forall c b, all_content c -> clean (c ++ b) = true -> plains c.
Proof. intros c b C K. pose proof (clean_plain c b C K) as H. eapply Forall_impl; [|exact H]. intros e E. exact (proj1 E). Qed.
Lemma body_has : forall c, all_content c -> has_table (c ++ body_open) = false.
Proof. intros c C. rewrite skip_has by exact C. reflexivity. Qed.
Lemma existsb_foreign : forall l, forallb html l = true -> existsb (fun e => negb (html e)) l = false.
Proof. intros l. induction l as [|e l IH]; intros H; [reflexivity|]. cbn [forallb] in H. apply andb_true_iff in H as [H H']. cbn [existsb]. rewrite H. exact (IH H'). Qed.
(* result of the standard: not by HTML rules *)
Lemma rules_nine : forall n, one_of nine n = true -> breaks_out n = false.
Proof. intros n N. rewrite <- breaks_same. exact (nine_breaks n N). Qed.
Lemma foreign_content : forall n sc x, one_of nine n = true -> x <> Html -> content (El (match x with Svg => svg_name n | _ => n end) x sc) = true.
Proof.
  intros n sc x N X. unfold content, html. destruct (ten_svg n (nine_ten n N)) as [E L]. destruct x; [congruence| |]; cbn [es en]; rewrite ?E, (rules_nine n N), (nine_ten n N), orb_true_r; reflexivity.
Qed.
Definition follows (q : bool) (o : list str) (e : event) (s : state) (p : st) : Prop :=
  exists s' p' m, std_event q e s = Some (s', m) /\ code_event q o e p = (p', m) /\ tinv q s' p' /\ (sfm s = fm p -> ok_marks e s = true -> sfm s' = fm p').
Lemma clear_same : forall f, clear_formatting f = clear_marker f.
Proof. induction f as [|[|k] f IH]; [reflexivity|reflexivity|exact IH]. Qed.
(* what the shape says of the standard's stack once content is inserted on it *)
Lemma follows_foreign : forall q o n sc s p, tinv q s p -> one_of nine n = true -> by_html_rules n (sst s) = false -> follows q o (Tag (StartTag n sc)) s p.
Proof.
  intros q o n sc [m l f] [pk g pf] I N R. destruct I as [E S M W P G]. cbn [sk sst md colg] in *. subst pk. destruct l as [|e t]; [discriminate R|].
  assert (html e = false) as He. { rewrite (ten_rules n _ (nine_ten n N)) in R. cbn [html_text] in R. destruct (html e); [discriminate R|reflexivity]. }
  assert (es e <> Html) as Ne by (intros X; unfold html in He; rewrite X in He; discriminate).
  set (k := fst (opened n false sc (es e) (e :: t))) in *.
  assert (k = e :: t \/ k = El (match es e with Svg => svg_name n | _ => n end) (es e) false :: e :: t) as K.
  { unfold k, opened. cbn [fst]. destruct (match es e with Html => _ | _ => sc end); auto. }
  exists (State m k f), (St k g pf), (snd (opened n false sc (es e) (e :: t))). split; [|split; [|split]].
  - unfold std_event, std_tag. cbn [sst]. rewrite R, (rules_nine n N). unfold k. destruct (opened n false sc (es e) (e :: t)) as [a b]. reflexivity.
  - unfold code_event. rewrite (start_foreign q o n sc (St (e :: t) g pf) e t N eq_refl R). reflexivity.
  - destruct K as [->| ->]; [constructor; first [assumption | reflexivity]|]. constructor; cbn [sk sst md colg].
    + reflexivity.
    + destruct (shaped_base q _ S) as (c & b & Ec & C & B & Gr). rewrite Ec. change (?x :: c ++ b) with ((x :: c) ++ b). apply shaped_of; [constructor; [apply foreign_content; assumption|exact C]|exact B|].
      intros X. exfalso. specialize (Gr X). subst c. cbn [app] in Ec. destruct B as [|s0 d b I0 D B H0 P0 W0]; [discriminate X|]. segs I0; injection Ec as Ee _; subst e; discriminate He.
    + rewrite M. cbn [reset]. unfold html_one_of, is. assert (html (El (match es e with Svg => svg_name n | _ => n end) (es e) false) = false) as -> by (exact He). reflexivity.
    + split; [intros X; exfalso; unfold html in X; cbn [es] in X; destruct (es e); [congruence|discriminate|discriminate]|exact W].
    + split; [intros X; exfalso; unfold is, html in X; cbn [es] in X; destruct (es e); [congruence|discriminate|discriminate]|exact P].
    + intros X. exfalso. unfold is, html in X. cbn [es] in X. destruct (es e); [congruence|discriminate|discriminate].
  - cbn [sfm fm]. auto.
Qed.
Lemma ok_start_parts : forall n sc s, ok_tag (StartTag n sc) s = true -> by_html_rules n (sst s) || breaks_out n = true ->
  clean (sst s) = true /\ (one_of ["table"] n = true -> has_table (sst s) = true -> reaches cell_or_caption (is "table") (sst s) = true -> reaches point (html_one_of ten) (sst s) = false)
  /\ (one_of ["td"; "th"] n = true -> md s = InRow -> reaches point (html_one_of ten) (sst s) = false)
  /\ (one_of ["td"; "th"; "tr"] n = true -> has_table (sst s) = false -> foreign_current (sst s) = false -> forallb html (sst s) = true)
  /\ (one_of ["colgroup"] n = true -> foreign_current (sst s) = false).
Proof.
  intros n sc s K R. unfold ok_tag in K. rewrite R in K. cbn [negb orb] in K. apply andb_true_iff in K as [K K5]. apply andb_true_iff in K as [K K4]. apply andb_true_iff in K as [K K3]. apply andb_true_iff in K as [K1 K2].
  split; [exact K1|]. split; [|split; [|split]].
  - intros A B C. rewrite A, B, C in K2. cbn [negb orb] in K2. rewrite orb_false_r in K2. apply negb_true_iff in K2. exact K2.
  - intros A B. rewrite A, B in K3. cbn [negb orb] in K3. apply negb_true_iff in K3. exact K3.
  - intros A B C. rewrite A, B, C in K4. exact K4.
  - intros A. rewrite A in K5. cbn [negb orb] in K5. apply negb_true_iff in K5. exact K5.
Qed.
Lemma process_ignored : forall q t s, by_mode q t s = Done s [] -> html_rules q t s = Some (s, []).
Proof. intros q t s H. unfold html_rules. apply process_done. exact H. Qed.
Lemma tinv_flag : forall q s l g f g', tinv q s (St l g f) -> match sst s with e :: _ => is "colgroup" e = true -> g' = true | [] => True end -> tinv q s (St l g' f).
Proof. intros q s l g f g' [E S M W P G] G'. constructor; assumption. Qed.
Lemma follows_no_table : forall q o n sc s p c, orders o -> tinv q s p -> one_of nine n = true -> by_html_rules n (sst s) = true -> ok_tag (StartTag n sc) s = true -> sst s = c ++ body_open -> all_content c ->
  follows q o (Tag (StartTag n sc)) s p.
Proof.
  intros q o n sc s p c O I N R K E C. destruct (ok_start_parts n sc s K ltac:(rewrite R; reflexivity)) as (K1 & _ & _ & K4 & _). rewrite E in *.
  pose proof (clean_plains c body_open C K1) as P. destruct p as [pk g pf]. pose proof (t_same _ _ _ I) as Sm. cbn [sk] in Sm. rewrite E in Sm. subst pk.
  destruct (group_step_plain n (c ++ body_open) g pf (plain_current [u "colgroup"] _ (plains_end c P) ltac:(concrete))) as [g' Gs].
  exists s, (St (c ++ body_open) g' pf), []. split; [|split; [|split]].
  - unfold std_event, std_tag. rewrite E, R. apply process_ignored. unfold by_mode. rewrite (t_mode _ _ _ I), E, (reset_body c C). unfold in_body. assert (one_of ["table"] n = false) as -> by (names N; reflexivity). reflexivity.
  - unfold code_event. rewrite start_nine; rewrite ?Gs; cbn [sk].
    + apply none_structured; [exact O|exact (plains_end c P)|exact N].
    + exact N.
    + rewrite <- (ten_rules n _ (nine_ten n N)). exact R.
    + unfold hack. destruct (in_strs n (map u ["td"; "th"; "tr"])) eqn:T; [|reflexivity]. destruct (foreign_current (c ++ body_open)) eqn:F; [rewrite andb_false_r; reflexivity|].
      specialize (K4 T (body_has c C) eq_refl). rewrite (existsb_foreign _ K4). rewrite andb_false_r. reflexivity.
  - apply (tinv_flag q s _ g); [exact I|]. rewrite E. destruct c as [|e c]; cbn [app body_open]; [intros X; vm_compute in X; discriminate X|]. inversion C; subst. rewrite content_is by (assumption || concrete). discriminate.
  - cbn [fm]. auto.
Qed.
Lemma reaches_point_content : forall c l, all_content c -> reaches point (html_one_of ten) (c ++ l) = false -> existsb point c = false.
Proof.
  intros c l C. induction C as [|e t Ce Ct IH]; intros R; [reflexivity|]. cbn [reaches app] in R. apply orb_false_iff in R as [R1 R2]. rewrite (content_not ten e Ce) in R2 by concrete. cbn [negb andb] in R2. cbn [existsb]. rewrite R1. exact (IH R2).
Qed.
Lemma row_mode : forall s, In s segments -> row_of s <> None -> cellish s = false -> reset s = InRow.
Proof. intros s I R E. segs I; try discriminate E; try (exfalso; apply R; reflexivity); reflexivity. Qed.
(* the segment made *)
Lemma expected_seg : forall n s k, In s segments -> one_of nine n = true -> exists s', In s' segments /\ fst (expected n s k) = s' ++ k /\ grouped s' = one_of ["col"; "colgroup"] n.
Proof.
  intros n s k I N. exists (fst (expected n s [])). names N; segs I; (split; [|split]); try reflexivity; vm_compute; tauto.
Qed.
