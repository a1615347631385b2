(* C67, C68: what holds of the start tags of tables on every stack with a table open *)
From Coq Require Import List Arith Bool String Lia.
From Verif Require Import Str StrFacts.
From Verif Require Import AaaModel GuardModel CloseModel CloseSpec CloseProofs1 CloseProofs2 CloseProofs3 CloseProofs4 CloseProofs5 CloseProofs6 CloseProofs7 TableModel TableSpec TableProofs1 TableProofs2 TableProofs3 TableProofs4 TableProofs5 TableProofs6 TableProofs7 TableProofs8 TableProofs9 TableProofs10 TableProofs11 TableProofs12 TableProofs13 TableProofs14.
Import ListNotations.
Open Scope string_scope. Open Scope list_scope. Open Scope nat_scope.

Definition tabled (l T : stack) : Prop := exists x, l = x ++ T /\ Forall (fun e => named (u "table") e = false) x.
Definition topped (T : stack) : Prop := match T with e :: _ => named (u "table") e = true /\ html e = true | [] => False end.
Definition open_table (l : stack) : Prop := existsb (named (u "table")) l = true /\ (forall e, In e l -> named (u "table") e = true -> html e = true).
Lemma open_parts : forall l, open_table l -> exists T, tabled l T /\ topped T.
Proof.
  induction l as [|e l IH]; intros [A B]; [discriminate|]. destruct (named (u "table") e) eqn:N.
  - exists (e :: l). split; [exists []; split; [reflexivity|constructor]|]. split; [exact N|]. apply B; [left; reflexivity|exact N].
  - cbn [existsb] in A. rewrite N in A. destruct (IH (conj A (fun x I => B x (or_intror I)))) as (T & (x & -> & F) & Tp). exists T. split; [|exact Tp]. exists (e :: x). split; [reflexivity|]. constructor; assumption.
Qed.
Section Over.
Variable T : stack.
Hypothesis Tp : topped T.
Lemma tabled_pos : forall l, tabled l T -> last_pos (named (u "table")) l = List.length T.
Proof. intros l (x & -> & F). rewrite (last_pos_skip _ _ _ F). destruct T as [|e t]; [contradiction|]. destruct Tp as [N _]. cbn [last_pos]. rewrite N. reflexivity. Qed.
Lemma tabled_pos_ne : forall l, tabled l T -> (last_pos (named (u "table")) l =? 0) = false.
Proof. intros l H. rewrite (tabled_pos l H). destruct T; [contradiction|reflexivity]. Qed.
Lemma tabled_keep : forall l, tabled l T -> keep (List.length T) l = T.
Proof. intros l (x & -> & _). apply keep_app. Qed.
Lemma tabled_self : tabled T T. Proof. exists []. split; [reflexivity|constructor]. Qed.
Lemma tabled_current : forall l, tabled l T -> current_in [u "table"] l = true -> l = T.
Proof. intros l (x & -> & F) C. destruct F as [|e x Fe F]; [reflexivity|]. cbn [app current_in] in C. unfold name_in in C. rewrite in_one in C. unfold named in Fe. congruence. Qed.
Lemma tabled_tl : forall e l, tabled (e :: l) T -> named (u "table") e = false -> tabled l T.
Proof.
  intros e l (x & E & F) N. destruct F as [|y x Fy F].
  - cbn [app] in E. subst T. destruct Tp as [A _]. congruence.
  - cbn [app] in E. injection E as -> ->. exists x. split; [reflexivity|exact F].
Qed.
Lemma tabled_until : forall n l, tabled l T -> str_eqb n (u "table") = false -> tabled (or_same (close_until n bound_table l) l) T.
Proof.
  intros n l (x & -> & F) N. assert (close_until n bound_table (x ++ T) = None \/ exists k, close_until n bound_table (x ++ T) = Some k /\ tabled k T) as [->|(k & -> & K)]; [|exists x; auto|exact K].
  induction F as [|e x Fe F IH].
  - left. cbn [app]. destruct T as [|e t]; [contradiction|]. destruct Tp as [A B]. cbn [close_until]. assert (named n e = false) as ->.
    { unfold named in *. apply str_eqb_eq in A. rewrite A. destruct (str_eqb (u "table") n) eqn:X; [|reflexivity]. apply str_eqb_eq in X. subst n. rewrite str_eqb_refl in N. discriminate. }
    unfold named in A. unfold name_in, bound_table. rewrite in_one, A, B. reflexivity.
  - cbn [app close_until]. destruct (named n e); [right; exists (x ++ T); split; [reflexivity|exists x; auto]|]. destruct (html e && name_in bound_table e); [left; reflexivity|]. exact IH.
Qed.
Lemma tabled_cell : forall s, tabled (sk s) T -> tabled (sk (close_cell s)) T.
Proof.
  intros s (x & E & F). unfold close_cell. assert (find_cell (sk s) = None \/ exists k, find_cell (sk s) = Some k /\ tabled k T) as [->|(k & -> & K)]; [|exists x; auto|destruct s; exact K].
  rewrite E. clear E s. induction F as [|e x Fe F IH].
  - left. cbn [app]. destruct T as [|e t]; [contradiction|]. destruct Tp as [A B]. cbn [find_cell]. rewrite A. reflexivity.
  - cbn [app find_cell]. rewrite Fe. destruct (name_in cell_names e); [right; exists (x ++ T); split; [reflexivity|exists x; auto]|exact IH].
Qed.
Lemma tabled_stray : forall l, tabled l T -> tabled (close_stray l) T.
Proof.
  intros l (x & -> & F). unfold close_stray. assert (find_section (x ++ T) = None \/ exists k, find_section (x ++ T) = Some k /\ tabled k T) as [->|(k & -> & K)]; [|exists x; auto|exact K].
  induction F as [|e x Fe F IH].
  - left. cbn [app]. destruct T as [|e t]; [contradiction|]. destruct Tp as [A B]. cbn [find_section]. rewrite A. assert (name_in section_names e = false) as ->; [|reflexivity].
    unfold named in A. apply str_eqb_eq in A. unfold name_in. rewrite A. reflexivity.
  - cbn [app find_section]. destruct (name_in section_names e); [right; exists ((e :: x) ++ T); split; [reflexivity|exists (e :: x); split; [reflexivity|constructor; assumption]]|].
    destruct (named (u "table") e || name_in cell_names e || named (u "tr") e); [left; reflexivity|exact IH].
Qed.
Lemma tabled_sections : forall o l, Forall (fun n => str_eqb n (u "table") = false) o -> tabled l T -> tabled (close_sections o l) T.
Proof. intros o l F. revert l. unfold close_sections. induction F as [|n o Fn F IH]; intros l H; [exact H|]. cbn [fold_left]. apply IH. apply tabled_until; assumption. Qed.
Lemma skip_split : forall p a b, existsb p a = true -> exists x y, a = x ++ y /\ last_pos p (a ++ b) - 1 = List.length (y ++ b).
Proof.
  intros p a b H. destruct (last_split p a H) as (x & e & y & -> & L & _). exists (x ++ [e]), y. split; [rewrite <- app_assoc; reflexivity|]. rewrite last_pos_app, H, L, app_length. lia.
Qed.
Lemma tabled_selected : forall p l, tabled l T -> tabled (selected p (last_pos (named (u "table")) l) l) T.
Proof.
  intros p l H. unfold selected. cbv zeta. rewrite (tabled_pos l H). destruct (negb (List.length T =? 0) && (List.length T <? last_pos p l)) eqn:C; [|exact H].
  apply andb_true_iff in C as [_ C]. apply Nat.ltb_lt in C. destruct H as (x & -> & F). destruct (existsb p x) eqn:X.
  - destruct (skip_split p x T X) as (a & b & -> & E). rewrite E, <- app_assoc. rewrite keep_app. exists b. split; [reflexivity|]. apply Forall_app in F. tauto.
  - exfalso. rewrite last_pos_app, X in C. pose proof (last_pos_le p T). lia.
Qed.
Lemma tabled_row : forall l, tabled l T -> tabled (close_row l) T.
Proof. intros l H. apply tabled_until; [exact H|concrete]. Qed.
End Over.
(* the order of the sections *)
Definition section_order (o : list str) : Prop := Forall (fun n => in_strs n section_names = true) o.
Lemma order_table : forall o, section_order o -> Forall (fun n => str_eqb n (u "table") = false) o.
Proof. intros o H. eapply Forall_impl; [|exact H]. intros n N. apply section_cases in N as [->|[->| ->]]; reflexivity. Qed.
Lemma last_back : forall T s, topped T -> tabled (sk s) T -> (if negb (current_in [u "table"] (sk s)) then with_sk (keep (List.length T) (sk s)) s else s) = with_sk T s.
Proof.
  intros T s Tp H. destruct (current_in [u "table"] (sk s)) eqn:C; cbn [negb].
  - rewrite <- (tabled_current T (sk s) H C). symmetry. apply with_same.
  - rewrite (tabled_keep T (sk s) H). reflexivity.
Qed.
Lemma sections_back : forall o n s, section_order o -> open_table (sk s) -> one_of ["caption"; "tbody"; "thead"; "tfoot"] n = true ->
  exists T, tabled (sk s) T /\ topped T /\ repair_table o n s = (with_sk T (close_cell (with_sk (selected (named (u "select")) (last_pos (named (u "table")) (sk s)) (sk s)) s)), []).
Proof.
  intros o n s O P N. destruct (open_parts _ P) as (T & H & Tp). exists T. split; [exact H|]. split; [exact Tp|]. rewrite repair_eq. set (s1 := with_sk _ s).
  assert (tabled (sk s1) T) as H1 by (destruct s; apply tabled_selected; assumption). rewrite (tabled_pos T Tp (sk s) H). assert (List.length T =? 0 = false) as Z by (destruct T; [contradiction|reflexivity]).
  unfold repair_rest. cbv zeta. rewrite Z.
  assert (in_strs n (map u ["col"; "colgroup"]) = false) as -> by (refine (in_apart _ _ N _ _); concrete).
  assert (str_eqb n (u "caption") || in_strs n section_names = true) as ->.
  { assert (str_eqb n (u "caption") || in_strs n section_names = one_of ["caption"; "tbody"; "thead"; "tfoot"] n) as -> by reflexivity. exact N. }
  set (s2 := close_cell s1). assert (tabled (sk s2) T) as H2 by (apply tabled_cell; assumption). set (s3 := with_sk (close_sections o (close_row (sk s2))) s2).
  assert (tabled (sk s3) T) as H3 by (unfold s3; destruct s2; apply tabled_sections; [exact Tp|apply order_table; exact O|apply tabled_row; assumption]).
  rewrite (last_back T s3 Tp H3). unfold s3, with_sk. cbn [colg fm]. reflexivity.
Qed.
Lemma group_open : forall n s, open_table (sk s) -> open_table (sk (group_step n s)).
Proof.
  intros n [l g f] P. assert (open_table (pop_if [u "colgroup"] l)) as Q.
  { unfold pop_if. destruct (current_in [u "colgroup"] l) eqn:C; [|exact P]. destruct l as [|e l]; [discriminate|]. cbn [current_in] in C. unfold name_in in C. rewrite in_one in C. apply str_eqb_eq in C. destruct P as [A B].
    cbn [existsb sk] in A. assert (named (u "table") e = false) as Ne by (unfold named; rewrite C; reflexivity). rewrite Ne in A. split; [exact A|]. intros x I. apply B. right. exact I. }
  unfold group_step. cbn [sk colg fm] in *. destruct (foreign_current l); [exact P|]. destruct (str_eqb n (u "colgroup")); [exact Q|]. destruct (g && negb (str_eqb n (u "col"))); [exact Q|exact P].
Qed.
Lemma ten_cases : forall n, one_of ten n = true -> n = u "table" \/ one_of nine n = true.
Proof. exact ten_table_nine. Qed.
Theorem any_order : forall q o1 o2 n sc s, section_order o1 -> section_order o2 -> open_table (sk s) -> one_of ten n = true -> one_of ["col"; "colgroup"] n = false ->
  table_start q o1 n sc s = table_start q o2 n sc s.
Proof.
  intros q o1 o2 n sc s O1 O2 P N C. destruct (ten_cases n N) as [->|N'].
  - rewrite !table_unfold. reflexivity.
  - destruct (html_text n (sk (group_step n s))) eqn:H.
    + destruct (open_parts _ (group_open n s P)) as (T & Tb & Tp).
      assert (hack n (sk (group_step n s)) = false) as K by (unfold hack; rewrite (tabled_pos_ne T Tp _ Tb); rewrite andb_false_r; reflexivity).
      rewrite !start_nine by assumption. unfold structured. assert (repair_table o1 n (group_step n s) = repair_table o2 n (group_step n s)) as ->; [|reflexivity].
      destruct (one_of ["caption"; "tbody"; "thead"; "tfoot"] n) eqn:M.
      * destruct (sections_back o1 n _ O1 (group_open n s P) M) as (T1 & A1 & B1 & ->). destruct (sections_back o2 n _ O2 (group_open n s P) M) as (T2 & A2 & B2 & ->).
        assert (T1 = T2) as ->; [|reflexivity]. rewrite <- (tabled_keep T1 _ A1), <- (tabled_keep T2 _ A2). rewrite <- (tabled_pos T1 B1 _ A1), <- (tabled_pos T2 B2 _ A2). reflexivity.
      * rewrite !repair_eq. unfold repair_rest. cbv zeta. change (in_strs n (map u ["col"; "colgroup"])) with (one_of ["col"; "colgroup"] n). rewrite C.
        assert (str_eqb n (u "caption") || in_strs n section_names = one_of ["caption"; "tbody"; "thead"; "tfoot"] n) as -> by reflexivity. rewrite M. reflexivity.
    + unfold table_start. fold (group_step n s). cbv zeta. rewrite H. rewrite (nine_breaks n N'). cbn [andb negb]. reflexivity.
Qed.

(* the parents of what is made *)
Definition parents (n : str) : list string :=
  if one_of ["td"; "th"] n then ["tr"] else if one_of ["tr"] n then ["tbody"; "thead"; "tfoot"] else if one_of ["col"] n then ["colgroup"] else ["table"].
Definition housed (m : el * stack) : Prop := html (fst m) = true -> one_of nine (en (fst m)) = true -> match snd m with p :: _ => one_of (parents (en (fst m))) (en p) = true | [] => False end.
Lemma ns_stays : forall n l, exists ns, namespace_for n false l = (ns, l).
Proof.
  intros n [|e l]; [eexists; reflexivity|]. unfold namespace_for. destruct (html e); [eexists; reflexivity|]. destruct (html_point e); [eexists; reflexivity|]. destruct (text_point e && _); [eexists; reflexivity|].
  destruct (match es e with Math => _ | _ => false end); eexists; reflexivity.
Qed.
Lemma put_parts : forall n sc s, one_of nine n = true -> exists e s', put n false sc s = (s', [(e, sk s)]) /\ en e = n /\ (sc = false -> str_eqb n (u "col") = false -> sk s' = e :: sk s).
Proof.
  intros n sc s N. unfold put, insert. destruct (ns_stays n (sk s)) as [ns ->]. eexists _, _. split; [reflexivity|]. destruct (ten_svg n (nine_ten n N)) as [Sv _]. split.
  - cbn [en]. destruct ns; first [reflexivity | exact Sv].
  - intros -> Nc. cbn [sk]. destruct ns; try reflexivity. assert (in_strs n void_names = false) as ->; [|reflexivity]. names N; try reflexivity. vm_compute in Nc. discriminate Nc.
Qed.
Lemma housed_put : forall n sc s, one_of nine n = true -> match sk s with p :: _ => one_of (parents n) (en p) = true | [] => False end -> Forall housed (snd (put n false sc s)).
Proof.
  intros n sc s N P. destruct (put_parts n sc s N) as (e & s' & -> & E & _). cbn [snd]. constructor; [|constructor]. unfold housed. cbn [fst snd]. rewrite E. intros _ _. exact P.
Qed.
Lemma current_names : forall L l, current_in (map u L) l = true -> match l with p :: _ => one_of L (en p) = true | [] => False end.
Proof. intros L [|e l] C; [discriminate|exact C]. Qed.
Lemma housed_putting : forall n r, one_of nine n = true -> str_eqb n (u "col") = false -> Forall housed (snd r) -> match sk (fst r) with p :: _ => one_of (parents n) (en p) = true | [] => False end ->
  Forall housed (snd (putting n r)) /\ match sk (fst (putting n r)) with p :: _ => en p = n | [] => False end.
Proof.
  intros n [s m] N Nc H P. cbn [fst snd] in *. unfold putting. pose proof (housed_put n false s N P) as X. destruct (put_parts n false s N) as (e & s' & Q & E & K). rewrite Q in *. cbn [fst snd] in *. split; [apply Forall_app; auto|].
  rewrite (K eq_refl Nc). exact E.
Qed.
Lemma topped_table : forall T, topped T -> current_in [u "table"] T = true.
Proof. intros [|e T] H; [contradiction|]. destruct H as [N _]. cbn [current_in]. unfold name_in. rewrite in_one. exact N. Qed.
Lemma housed_repair : forall o n s, section_order o -> open_table (sk s) -> one_of nine n = true -> Forall housed (snd (repair_table o n s)) /\ (str_eqb n (u "col") = true -> match sk (fst (repair_table o n s)) with p :: _ => en p = u "table" -> False | [] => True end).
Proof.
  intros o n s O P N. destruct (open_parts _ P) as (T & Tb & Tp). rewrite repair_eq. set (s1 := with_sk _ s). assert (tabled (sk s1) T) as H1 by (destruct s; apply tabled_selected; assumption).
  rewrite (tabled_pos T Tp (sk s) Tb). assert (List.length T =? 0 = false) as Z by (destruct T; [contradiction|reflexivity]). unfold repair_rest. cbv zeta. rewrite Z. set (s2 := close_cell s1). assert (tabled (sk s2) T) as H2 by (apply tabled_cell; assumption).
  pose proof (current_names ["table"]) as CT. cbn [map] in CT.
  destruct (in_strs n (map u ["col"; "colgroup"])) eqn:G.
  - match goal with |- context [if ?t then with_sk ?k ?x else ?y] => set (s4 := if t then with_sk k x else y) end.
    destruct (str_eqb n (u "col") && current_in [u "table"] (sk s4)) eqn:K.
    + apply andb_true_iff in K as [_ K]. destruct (housed_putting (u "colgroup") (s4, []) eq_refl eq_refl ltac:(constructor) (CT _ K)) as [A B]. destruct (putting (u "colgroup") (s4, [])) as [s5 m]. cbn [fst snd] in *.
      split; [exact A|]. intros _. destruct s5 as [l5 g5 f5]. cbn [with_colg sk] in *. destruct l5 as [|p l5]; [exact Logic.I|]. rewrite B. intros X. vm_compute in X. discriminate X.
    + cbn [fst snd]. split; [constructor|]. intros C. rewrite C in K. cbn [andb] in K. destruct (sk s4) as [|p l]; [exact Logic.I|]. intros X. cbn [current_in] in K. unfold name_in in K. rewrite X, in_one, str_eqb_refl in K. discriminate.
  - assert (str_eqb n (u "col") = false) as Nc by (destruct (str_eqb n (u "col")) eqn:Q; [apply str_eqb_eq in Q; subst n; vm_compute in G; discriminate G|reflexivity]). split; [|rewrite Nc; discriminate].
    destruct (str_eqb n (u "caption") || in_strs n section_names); [constructor|]. destruct (str_eqb n (u "tr")).
    + match goal with |- context [close_stray ?k] => set (s3 := with_sk (close_stray k) s2) end. assert (tabled (sk s3) T) as H3 by (unfold s3; destruct s2; apply tabled_stray; [exact Tp|apply tabled_row; assumption]).
      destruct (current_in [u "table"] (sk s3)) eqn:C; [apply housed_putting; [reflexivity|reflexivity|constructor|exact (CT _ C)]|].
      destruct (negb (current_in section_names (sk s3)) && negb false); [|constructor]. apply housed_putting; [reflexivity|reflexivity|constructor|]. cbn [fst]. unfold with_sk. cbn [sk]. rewrite (tabled_keep T _ H3). exact (CT _ (topped_table T Tp)).
    + assert (forall r, Forall housed (snd r) -> match sk (fst r) with p :: _ => one_of ["table"] (en p) = true | [] => False end -> Forall housed (snd (putting (u "tr") (putting (u "tbody") r)))) as Two.
      { intros r H C. destruct (housed_putting (u "tbody") r eq_refl eq_refl H C) as [A B]. apply housed_putting; [reflexivity|reflexivity|exact A|]. destruct (sk (fst (putting (u "tbody") r))); [contradiction|]. rewrite B. reflexivity. }
      match goal with |- context [match find_before ?a ?b ?c with Some below => @?f below | None => ?x end] => set (s3 := match find_before a b c with Some below => f below | None => x end) end.
      destruct (in_strs n cell_names); [|constructor].
      destruct (current_in [u "tr"] (sk s3)); [constructor|]. destruct (current_in [u "table"] (sk s3)) eqn:C; [apply Two; [constructor|exact (CT _ C)]|].
      destruct (current_in section_names (sk s3)) eqn:D; [apply housed_putting; [reflexivity|reflexivity|constructor|exact (current_names ["tbody"; "thead"; "tfoot"] _ D)]|].
      destruct (last_pos (named (u "table")) (sk s3) =? 0) eqn:Y; [constructor|]. apply Two; [constructor|]. cbn [fst]. unfold with_sk. cbn [sk]. clear - Y. generalize (sk s3) Y. clear. intros l Y.
      assert (exists x e t, l = x ++ e :: t /\ last_pos (named (u "table")) l = S (List.length t) /\ named (u "table") e = true) as (x & e & t & -> & -> & E).
      { assert (existsb (named (u "table")) l = true) as X by (destruct (existsb (named (u "table")) l) eqn:X; [reflexivity|rewrite (last_pos_pos _ _ X) in Y; discriminate Y]). destruct (last_split _ _ X) as (x & e & t & A & B & C). eauto 6. }
      rewrite (keep_app x (e :: t) : keep (S (List.length t)) (x ++ e :: t) = e :: t). unfold one_of. cbn [map]. rewrite in_one. exact E.
Qed.
Theorem housed_start : forall q o n sc s, section_order o -> open_table (sk s) -> one_of ten n = true -> Forall housed (snd (table_start q o n sc s)).
Proof.
  intros q o n sc s O P N. destruct (ten_cases n N) as [->|N'].
  - rewrite table_unfold. cbv zeta. unfold put, insert. match goal with |- context [namespace_for ?a ?b ?c] => destruct (namespace_for a b c) as [ns k] end. cbn [snd]. constructor; [|constructor].
    unfold housed. cbn [fst snd en html es]. intros H X. exfalso. destruct ns; vm_compute in X; discriminate X.
  - destruct (html_text n (sk (group_step n s))) eqn:H.
    + destruct (open_parts _ (group_open n s P)) as (T & Tb & Tp).
      assert (hack n (sk (group_step n s)) = false) as K by (unfold hack; rewrite (tabled_pos_ne T Tp _ Tb); rewrite andb_false_r; reflexivity).
      rewrite start_nine by assumption. unfold structured. destruct (housed_repair o n _ O (group_open n s P) N') as [A B]. destruct (repair_table o n (group_step n s)) as [s1 m]. cbn [fst snd] in *.
      destruct (fits n (sk s1)) eqn:F; [|exact A]. assert (Forall housed (snd (put n false sc s1))) as C.
      { apply housed_put; [exact N'|]. revert B F. clear - N'. intros B F. unfold fits in F. names N'; cbn [map] in *;
        try (apply (current_names ["table"]); exact F); try (apply (current_names ["tr"]); exact F); try (apply (current_names ["tbody"; "thead"; "tfoot"]); exact F).
        - specialize (B eq_refl). change (current_in [u "table"] (sk s1) || true && current_in [u "colgroup"] (sk s1) = true) in F. apply orb_true_iff in F as [F|F].
          + exfalso. pose proof (current_names ["table"] _ F) as X. destruct (sk s1) as [|p l]; [exact X|]. unfold one_of in X. cbn [map] in X. rewrite in_one in X. apply str_eqb_eq in X. exact (B X).
          + exact (current_names ["colgroup"] _ F).
        - change (current_in [u "table"] (sk s1) || false && current_in [u "colgroup"] (sk s1) = true) in F. cbn [andb] in F. rewrite orb_false_r in F. exact (current_names ["table"] _ F). }
      destruct (put n false sc s1) as [s2 m2]. cbn [snd] in *. apply Forall_app. auto.
    + unfold table_start. fold (group_step n s). cbv zeta. rewrite H, (nine_breaks n N'). cbn [andb negb]. destruct (str_eqb n (u "table")) eqn:E; [apply str_eqb_eq in E; subst n; vm_compute in N'; discriminate N'|].
      unfold put. destruct (sk (group_step n s)) as [|e l] eqn:El; [discriminate H|]. unfold insert.
      assert (exists ns, namespace_for n false (e :: l) = (ns, e :: l) /\ ns <> Html) as (ns & -> & Ne).
      { cbn [html_text] in H. apply orb_false_iff in H as [H H3]. apply orb_false_iff in H as [H1 H2]. unfold namespace_for. rewrite H1, H2, H3. assert (str_eqb n (u "svg") = false) as -> by (names N'; reflexivity). rewrite andb_false_r.
        exists (es e). split; [destruct (es e); reflexivity|]. unfold html in H1. destruct (es e); discriminate. }
      cbn [snd]. constructor; [|constructor]. unfold housed. cbn [fst html es]. destruct ns; [congruence|discriminate|discriminate].
Qed.
