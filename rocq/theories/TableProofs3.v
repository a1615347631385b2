(* C67: start tags other than table, with a table open: the standard and the parser *)
From Coq Require Import List Arith Bool String Lia.
From Verif Require Import Str StrFacts.
From Verif Require Import AaaModel GuardModel CloseModel CloseSpec CloseProofs1 CloseProofs2 CloseProofs3 CloseProofs4 CloseProofs5 CloseProofs6 TableModel TableSpec TableProofs1 TableProofs2.
Import ListNotations.
Open Scope string_scope. Open Scope list_scope. Open Scope nat_scope.

Definition nine : list string := ["caption"; "col"; "colgroup"; "tbody"; "td"; "tfoot"; "th"; "thead"; "tr"].
Ltac names I := unfold one_of, in_strs, nine, ten in I; cbn [map existsb] in I; rewrite !orb_true_iff in I;
  repeat match type of I with _ \/ _ => destruct I as [I|I] | false = true => discriminate I end; apply str_eqb_eq in I; subst.
Ltac skips := repeat (rewrite ?app_assoc_reverse;
  first [ rewrite skip_scope_one by (assumption || concrete) | rewrite skip_scope_is by (assumption || concrete) | rewrite skip_scope_element by (assumption || concrete)
        | rewrite skip_pop_one by (assumption || concrete) | rewrite skip_pop_is by (assumption || concrete) | rewrite skip_pop_element by (assumption || concrete)
        | rewrite skip_clear by (assumption || concrete) ]).
(* what the standard makes of the tag: the elements opened above table :: l, and the elements made *)
Definition section_of (s : stack) : option el := List.find (fun e => in_strs (en e) section_names) s.
Definition row_of (s : stack) : option el := List.find (fun e => str_eqb (en e) (u "tr")) s.
Definition with_section (s l : stack) : stack * made :=
  match section_of s with Some e => (e :: nd "table" :: l, []) | None => (nd "tbody" :: nd "table" :: l, [(nd "tbody", nd "table" :: l)]) end.
Definition with_row (s l : stack) : stack * made :=
  let '(k, m) := with_section s l in match row_of s with Some e => (e :: k, m) | None => (nd "tr" :: k, m ++ [(nd "tr", k)]) end.
Definition grouped (s : stack) : bool := match s with e :: _ => str_eqb (en e) (u "colgroup") | [] => false end.
Definition captioned (s : stack) : bool := match s with e :: _ => str_eqb (en e) (u "caption") | [] => false end.
Definition expected (n : str) (s l : stack) : stack * made :=
  if one_of ["col"] n then
    let k := nd "colgroup" :: nd "table" :: l in
    (k, (if grouped s then [] else [(nd "colgroup", nd "table" :: l)]) ++ [(node n, k)])
  else
    let '(k, m) := if one_of ["tr"] n then with_section s l else if one_of ["td"; "th"] n then with_row s l else (nd "table" :: l, []) in
    (node n :: k, m ++ [(node n, k)]).
Definition marked (n : str) (f : list mark) : list mark := if one_of ["caption"; "td"; "th"] n then Marker :: f else f.
Definition std_marks (s : stack) (f : list mark) : list mark := if cellish s || captioned s then clear_formatting f else f.

Lemma caption_until : forall L l, sub (map u L) (map u ["td"; "th"; "caption"]) = true -> pop_until (html_one_of L) (generate never l) = pop_until (html_one_of L) l.
Proof.
  intros L l S. apply never_until. intros e E. unfold html_one_of in E. apply andb_true_iff in E as [_ E]. unfold one_of in E.
  refine (in_apart _ _ (in_sub _ _ E _ S) _ _). concrete.
Qed.
Lemma caption_is_until : forall n l, in_strs (u n) (map u ["td"; "th"; "caption"]) = true -> pop_until (is n) (generate never l) = pop_until (is n) l.
Proof. intros n l S. apply never_until. intros e E. apply is_name in E. rewrite E. refine (in_apart _ _ S _ _). concrete. Qed.
Lemma cell_element_until : forall n l, in_strs n (map u ["td"; "th"; "caption"]) = true -> pop_until (element n) (generate never l) = pop_until (element n) l.
Proof. intros n l S. apply never_until. intros e E. apply element_name in E. rewrite E. refine (in_apart _ _ S _ _). concrete. Qed.

(* the standard, mode by mode *)
Lemma std_cell : forall q n sc c cell row sec l f, all_content c -> In [cell; row; sec; nd "table"] segments -> one_of nine n = true ->
  by_mode q (StartTag n sc) (State InCell (c ++ cell :: row :: sec :: nd "table" :: l) f) = Again (State InRow (row :: sec :: nd "table" :: l) (clear_formatting f)) [].
Proof.
  intros q n sc c x r e l f C I N. unfold by_mode. cbn [md]. unfold in_cell. cbn [sst sfm]. change (one_of ["caption"; "col"; "colgroup"; "tbody"; "td"; "tfoot"; "th"; "thead"; "tr"] n) with (one_of nine n). rewrite N.
  rewrite caption_until by concrete. skips. cbn [segments In] in I. repeat match type of I with _ \/ _ => destruct I as [I|I] | False => contradiction I end; try discriminate I; injection I as <- <- <-; reflexivity.
Qed.
Lemma std_row_out : forall q n sc c sec l f, all_content c -> In [nd "tr"; sec; nd "table"] segments -> one_of nine n = true -> one_of ["th"; "td"] n = false ->
  by_mode q (StartTag n sc) (State InRow (c ++ nd "tr" :: sec :: nd "table" :: l) f) = Again (State InTableBody (sec :: nd "table" :: l) f) [].
Proof.
  intros q n sc c e l f C I N T. unfold by_mode. cbn [md]. unfold in_row. cbn [sst sfm]. rewrite T. skips.
  names N; try (vm_compute in T; discriminate T); reflexivity.
Qed.
Lemma std_row_in : forall q n sc c sec l f, all_content c -> one_of ["th"; "td"] n = true ->
  by_mode q (StartTag n sc) (State InRow (c ++ nd "tr" :: sec :: nd "table" :: l) f) = Done (State InCell (node n :: nd "tr" :: sec :: nd "table" :: l) (Marker :: f)) [(node n, nd "tr" :: sec :: nd "table" :: l)].
Proof. intros q n sc c e l f C T. unfold by_mode. cbn [md]. unfold in_row. cbn [sst sfm]. rewrite T. skips. reflexivity. Qed.
Lemma std_section_out : forall q n sc c sec l f, all_content c -> In [sec; nd "table"] segments -> in_strs (en sec) section_names = true -> one_of nine n = true -> one_of ["th"; "td"; "tr"] n = false ->
  by_mode q (StartTag n sc) (State InTableBody (c ++ sec :: nd "table" :: l) f) = Again (State InTable (nd "table" :: l) f) [].
Proof.
  intros q n sc c e l f C I S N T. unfold by_mode. cbn [md]. unfold in_table_body. cbn [sst sfm]. skips.
  cbn [segments In] in I. repeat match type of I with _ \/ _ => destruct I as [I|I] | False => contradiction I end; try discriminate I; injection I as <-; try (vm_compute in S; discriminate S);
  names N; try (vm_compute in T; discriminate T); reflexivity.
Qed.
Lemma std_section_in : forall q n sc c sec l f, all_content c -> In [sec; nd "table"] segments -> in_strs (en sec) section_names = true -> one_of ["th"; "td"; "tr"] n = true ->
  by_mode q (StartTag n sc) (State InTableBody (c ++ sec :: nd "table" :: l) f) =
  if one_of ["tr"] n then Done (State InRow (node n :: sec :: nd "table" :: l) f) [(node n, sec :: nd "table" :: l)]
  else Again (State InRow (nd "tr" :: sec :: nd "table" :: l) f) [(nd "tr", sec :: nd "table" :: l)].
Proof.
  intros q n sc c e l f C I S N. unfold by_mode. cbn [md]. unfold in_table_body. cbn [sst sfm]. skips.
  cbn [segments In] in I. repeat match type of I with _ \/ _ => destruct I as [I|I] | False => contradiction I end; try discriminate I; injection I as <-; try (vm_compute in S; discriminate S);
  names N; reflexivity.
Qed.
Lemma std_caption : forall q n sc c l f, all_content c -> one_of nine n = true ->
  by_mode q (StartTag n sc) (State InCaption (c ++ nd "caption" :: nd "table" :: l) f) = Again (State InTable (nd "table" :: l) (clear_formatting f)) [].
Proof.
  intros q n sc c l f C N. unfold by_mode. cbn [md]. unfold in_caption. cbn [sst sfm]. change (one_of ["caption"; "col"; "colgroup"; "tbody"; "td"; "tfoot"; "th"; "thead"; "tr"] n) with (one_of nine n). rewrite N.
  rewrite caption_is_until by concrete. skips. reflexivity.
Qed.
Lemma std_group : forall q n sc l f, one_of nine n = true -> by_mode q (StartTag n sc) (State InColgroup (nd "colgroup" :: nd "table" :: l) f) =
  if one_of ["col"] n then Done (State InColgroup (nd "colgroup" :: nd "table" :: l) f) [(node n, nd "colgroup" :: nd "table" :: l)] else Again (State InTable (nd "table" :: l) f) [].
Proof. intros q n sc l f N. names N; reflexivity. Qed.
Lemma std_table : forall q n sc c l f, all_content c -> one_of nine n = true -> by_mode q (StartTag n sc) (State InTable (c ++ nd "table" :: l) f) =
  if one_of ["caption"] n then Done (State InCaption (node n :: nd "table" :: l) (Marker :: f)) [(node n, nd "table" :: l)]
  else if one_of ["colgroup"] n then Done (State InColgroup (node n :: nd "table" :: l) f) [(node n, nd "table" :: l)]
  else if one_of ["col"] n then Again (State InColgroup (nd "colgroup" :: nd "table" :: l) f) [(nd "colgroup", nd "table" :: l)]
  else if one_of ["tbody"; "tfoot"; "thead"] n then Done (State InTableBody (node n :: nd "table" :: l) f) [(node n, nd "table" :: l)]
  else Again (State InTableBody (nd "tbody" :: nd "table" :: l) f) [(nd "tbody", nd "table" :: l)].
Proof. intros q n sc c l f C N. unfold by_mode. cbn [md]. unfold in_table. cbn [sst sfm]. skips. names N; reflexivity. Qed.
Lemma process_again : forall k q t s s' m, by_mode q t s = Again s' m -> process (S k) q t s = match process k q t s' with Some (s'', m') => Some (s'', m ++ m') | None => None end.
Proof. intros k q t s s' m H. cbn [process]. rewrite H. reflexivity. Qed.
Lemma process_done : forall k q t s s' m, by_mode q t s = Done s' m -> process (S k) q t s = Some (s', m).
Proof. intros k q t s s' m H. cbn [process]. rewrite H. reflexivity. Qed.
Ltac in_segs := cbn [segments In]; tauto.
(* from a table, from a section, from a row, with nothing above *)
Lemma from_row : forall q n sc c sec l f k, all_content c -> In [nd "tr"; sec; nd "table"] segments -> one_of nine n = true -> one_of ["th"; "td"] n = true ->
  process (S k) q (StartTag n sc) (State InRow (c ++ nd "tr" :: sec :: nd "table" :: l) f) = Some (State InCell (node n :: nd "tr" :: sec :: nd "table" :: l) (Marker :: f), [(node n, nd "tr" :: sec :: nd "table" :: l)]).
Proof. intros q n sc c e l f k C I N T. apply process_done. apply std_row_in; assumption. Qed.
Lemma from_section : forall q n sc c sec l f k, all_content c -> In [sec; nd "table"] segments -> in_strs (en sec) section_names = true -> one_of ["th"; "td"; "tr"] n = true ->
  process (S (S k)) q (StartTag n sc) (State InTableBody (c ++ sec :: nd "table" :: l) f) =
  if one_of ["tr"] n then Some (State InRow (node n :: sec :: nd "table" :: l) f, [(node n, sec :: nd "table" :: l)])
  else Some (State InCell (node n :: nd "tr" :: sec :: nd "table" :: l) (Marker :: f), [(nd "tr", sec :: nd "table" :: l); (node n, nd "tr" :: sec :: nd "table" :: l)]).
Proof.
  intros q n sc c e l f k C I S N. destruct (one_of ["tr"] n) eqn:T.
  - apply process_done. rewrite std_section_in by assumption. rewrite T. reflexivity.
  - rewrite (process_again _ _ _ _ (State InRow (nd "tr" :: e :: nd "table" :: l) f) [(nd "tr", e :: nd "table" :: l)]).
    + assert (In [nd "tr"; e; nd "table"] segments /\ one_of nine n = true /\ one_of ["th"; "td"] n = true) as (J & N9 & N2).
      { split; [|split]. cbn [segments In] in I |- *. repeat match type of I with _ \/ _ => destruct I as [I|I] | False => contradiction I end; try discriminate I; injection I as <-; try (vm_compute in S; discriminate S); tauto.
        names N; reflexivity.
        names N; try reflexivity; vm_compute in T; discriminate T. }
      pose proof (from_row q n sc [] e l f k no_content J N9 N2) as W. cbn [app] in W. rewrite W. reflexivity.
    + rewrite std_section_in by assumption. rewrite T. reflexivity.
Qed.
Lemma from_table : forall q n sc c l f k, all_content c -> one_of nine n = true ->
  process (S (S (S k))) q (StartTag n sc) (State InTable (c ++ nd "table" :: l) f) =
  Some (State (reset (fst (expected n [nd "table"] l))) (fst (expected n [nd "table"] l)) (marked n f), snd (expected n [nd "table"] l)).
Proof.
  intros q n sc c l f k C N. pose proof (std_table q n sc c l f C N) as W. names N;
  first [ rewrite (process_done _ _ _ _ _ _ W); reflexivity | rewrite (process_again _ _ _ _ _ _ W) ].
  - rewrite (process_done _ _ _ _ _ _ (std_group q (u "col") sc l f eq_refl)). reflexivity.
  - pose proof (from_section q (u "td") sc [] (nd "tbody") l f k no_content ltac:(in_segs) eq_refl eq_refl) as V. cbn [app] in V. rewrite V. reflexivity.
  - pose proof (from_section q (u "th") sc [] (nd "tbody") l f k no_content ltac:(in_segs) eq_refl eq_refl) as V. cbn [app] in V. rewrite V. reflexivity.
  - pose proof (from_section q (u "tr") sc [] (nd "tbody") l f k no_content ltac:(in_segs) eq_refl eq_refl) as V. cbn [app] in V. rewrite V. reflexivity.
Qed.
Definition result (n : str) (s l : stack) (f : list mark) : option (state * made) :=
  Some (State (reset (fst (expected n s l))) (fst (expected n s l)) (marked n f), snd (expected n s l)).
Lemma nine_td : forall n, one_of nine n = true -> one_of ["th"; "td"; "tr"] n = true -> one_of ["tr"] n = false -> one_of ["th"; "td"] n = true.
Proof. intros n N T R. names N; try reflexivity; try (vm_compute in T; discriminate T); vm_compute in R; discriminate R. Qed.
Lemma seg_from_section : forall q n sc c sec l f k, all_content c -> In [nd sec; nd "table"] segments -> in_strs (u sec) section_names = true -> one_of nine n = true ->
  process (5 + k) q (StartTag n sc) (State InTableBody (c ++ nd sec :: nd "table" :: l) f) = result n [nd sec; nd "table"] l f.
Proof.
  intros q n sc c e l f k C I S N. assert (section_of [nd e; nd "table"] = Some (nd e)) as Se by (cbn [section_of List.find nd node en]; rewrite S; reflexivity).
  assert (row_of [nd e; nd "table"] = None) as Re by (apply section_cases in S as [S|[S|S]]; unfold row_of, nd; rewrite S; reflexivity).
  assert (grouped [nd e; nd "table"] = false) as Ge by (apply section_cases in S as [S|[S|S]]; unfold grouped, nd; rewrite S; reflexivity).
  destruct (one_of ["th"; "td"; "tr"] n) eqn:T.
  - change (5 + k) with (Datatypes.S (Datatypes.S (3 + k))). rewrite from_section by assumption. unfold result, expected, with_section, with_row, with_section. rewrite Se, Re.
    assert (reset (nd e :: nd "table" :: l) = InTableBody) as Rs by (apply section_cases in S as [S|[S|S]]; unfold nd; rewrite S; reflexivity).
    names N; try (vm_compute in T; discriminate T); reflexivity.
  - change (5 + k) with (Datatypes.S (4 + k)). rewrite (process_again _ _ _ _ _ _ (std_section_out q n sc c (nd e) l f C I S N T)).
    pose proof (from_table q n sc [] l f (Datatypes.S k) no_content N) as W. cbn [app] in W. change (4 + k) with (Datatypes.S (Datatypes.S (Datatypes.S (Datatypes.S k)))). rewrite W.
    unfold result, expected. rewrite Ge. names N; try (vm_compute in T; discriminate T); reflexivity.
Qed.
Lemma seg_from_row : forall q n sc c sec l f k, all_content c -> In [nd "tr"; nd sec; nd "table"] segments -> in_strs (u sec) section_names = true -> one_of nine n = true ->
  process (6 + k) q (StartTag n sc) (State InRow (c ++ nd "tr" :: nd sec :: nd "table" :: l) f) = result n [nd "tr"; nd sec; nd "table"] l f.
Proof.
  intros q n sc c e l f k C I S N. destruct (one_of ["th"; "td"] n) eqn:T.
  - change (6 + k) with (Datatypes.S (5 + k)). rewrite from_row by assumption. apply section_cases in S as [S|[S|S]]; unfold nd; rewrite S; names N; try (vm_compute in T; discriminate T); reflexivity.
  - change (6 + k) with (Datatypes.S (5 + k)). rewrite (process_again _ _ _ _ _ _ (std_row_out q n sc c (nd e) l f C I N T)).
    assert (In [nd e; nd "table"] segments) as J by (apply section_cases in S as [S|[S|S]]; unfold nd; rewrite S; in_segs).
    pose proof (seg_from_section q n sc [] e l f k no_content J S N) as W. cbn [app] in W. rewrite W.
    apply section_cases in S as [S|[S|S]]; unfold nd; rewrite S; names N; try (vm_compute in T; discriminate T); reflexivity.
Qed.
Theorem std_start_seg : forall q n sc c s l f, all_content c -> In s segments -> one_of nine n = true -> (grouped s = true -> c = []) ->
  html_rules q (StartTag n sc) (State (reset (s ++ l)) (c ++ s ++ l) f) = result n s l (std_marks s f).
Proof.
  intros q n sc c s l f C I N G. unfold html_rules.
  assert (forall cell sec, In [nd cell; nd "tr"; nd sec; nd "table"] segments -> in_strs (u sec) section_names = true ->
    process 8 q (StartTag n sc) (State InCell (c ++ nd cell :: nd "tr" :: nd sec :: nd "table" :: l) f) = result n [nd cell; nd "tr"; nd sec; nd "table"] l (clear_formatting f)) as Cell.
  { intros cell sec J S. rewrite (process_again _ _ _ _ _ _ (std_cell q n sc c _ _ _ l f C J N)).
    assert (In [nd "tr"; nd sec; nd "table"] segments) as K by (apply section_cases in S as [S|[S|S]]; unfold nd; rewrite S; in_segs).
    pose proof (seg_from_row q n sc [] sec l (clear_formatting f) 1 no_content K S N) as W. cbn [app] in W. change (6 + 1) with 7 in W. rewrite W.
    assert (result n [nd cell; nd "tr"; nd sec; nd "table"] l (clear_formatting f) = result n [nd "tr"; nd sec; nd "table"] l (clear_formatting f)) as ->; [|reflexivity].
    cbn [segments In] in J. repeat match type of J with _ \/ _ => destruct J as [J|J] | False => contradiction J end; try discriminate J; injection J as E1 E2; unfold nd; rewrite <- E1, <- E2; reflexivity. }
  segs I; unfold std_marks; cbn [cellish captioned grouped orb] in *;
  first [ apply Cell; [in_segs|reflexivity]
        | exact (seg_from_row q n sc c "tbody" l f 2 C ltac:(in_segs) eq_refl N)
        | exact (seg_from_row q n sc c "thead" l f 2 C ltac:(in_segs) eq_refl N)
        | exact (seg_from_row q n sc c "tfoot" l f 2 C ltac:(in_segs) eq_refl N)
        | exact (seg_from_section q n sc c "tbody" l f 3 C ltac:(in_segs) eq_refl N)
        | exact (seg_from_section q n sc c "thead" l f 3 C ltac:(in_segs) eq_refl N)
        | exact (seg_from_section q n sc c "tfoot" l f 3 C ltac:(in_segs) eq_refl N)
        | exact (from_table q n sc c l f 5 C N)
        | idtac ].
  - change (str_eqb (en (nd "caption")) (u "caption")) with true. cbv iota. change (reset (nd "caption" :: nd "table" :: l)) with InCaption. rewrite (process_again _ _ _ _ _ _ (std_caption q n sc c l f C N)).
    pose proof (from_table q n sc [] l (clear_formatting f) 4 no_content N) as W. cbn [app] in W. rewrite W. names N; reflexivity.
  - rewrite (G eq_refl) in *. change (str_eqb (en (nd "colgroup")) (u "caption")) with false. cbv iota. cbn [app].
    change (reset (nd "colgroup" :: nd "table" :: l)) with InColgroup. destruct (one_of ["col"] n) eqn:T.
    + rewrite (process_done _ _ _ _ _ _ (eq_trans (std_group q n sc l f N) ltac:(rewrite T; reflexivity))). names N; try (vm_compute in T; discriminate T); reflexivity.
    + rewrite (process_again _ _ _ _ _ _ (eq_trans (std_group q n sc l f N) ltac:(rewrite T; reflexivity))).
      pose proof (from_table q n sc [] l f 4 no_content N) as W. cbn [app] in W. rewrite W. names N; try (vm_compute in T; discriminate T); reflexivity.
Qed.
