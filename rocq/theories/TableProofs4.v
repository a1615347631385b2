(* C67: start tags other than table, with a table open: the parser *)
From Coq Require Import List Arith Bool String Lia.
From Verif Require Import Str StrFacts.
From Verif Require Import AaaModel GuardModel CloseModel CloseSpec CloseProofs1 CloseProofs2 CloseProofs3 CloseProofs4 CloseProofs5 CloseProofs6 TableModel TableSpec TableProofs1 TableProofs2 TableProofs3.
Import ListNotations.
Open Scope string_scope. Open Scope list_scope. Open Scope nat_scope.

Lemma suffix_content : forall x c, all_content (x ++ c) -> all_content c.
Proof. intros x c H. apply Forall_app in H. tauto. Qed.
Lemma select_ten : forall n, in_strs (u n) tens = true -> named (u "select") (nd n) = false.
Proof.
  intros n I. unfold named. cbn [en nd node]. destruct (str_eqb (u n) (u "select")) eqn:E; [|reflexivity]. apply str_eqb_eq in E. rewrite E in I. vm_compute in I. discriminate I.
Qed.
Definition plains (c : stack) : Prop := Forall (fun e => name_in tens e = false) c.
Lemma plains_suffix : forall x c, plains (x ++ c) -> plains c.
Proof. intros x c H. apply Forall_app in H. tauto. Qed.
(* the current node is an element of a table only where there is no content *)
Lemma current_plain : forall L c k, plains c -> c <> [] -> sub L tens = true -> current_in L (c ++ k) = false.
Proof. intros L [|e c] k P N S; [congruence|]. inversion P; subst. cbn [current_in app]. apply plain_in; assumption. Qed.
(* the rest of table_start, for the nine *)
Definition fits (name : str) (l : stack) : bool :=
  if str_eqb name (u "caption") then current_in [u "table"] l
  else if in_strs name (map u ["col"; "colgroup"]) then current_in [u "table"] l || (str_eqb name (u "col") && current_in [u "colgroup"] l)
  else if in_strs name section_names then current_in [u "table"] l
  else if str_eqb name (u "tr") then current_in section_names l
  else current_in [u "tr"] l.
Definition structured (order : list str) (name : str) (sc : bool) (s : st) : st * made :=
  let '(s, m) := repair_table order name s in if fits name (sk s) then let '(s, m') := put name false sc s in (s, m ++ m') else (s, m).
Lemma put_html : forall n sc l g f e, html e = true -> one_of ten n = true -> hd_error l = Some e -> put n false sc (St l g f) =
  (St (if str_eqb n (u "col") then l else node n :: l) g (if one_of ["td"; "th"; "caption"] n then Marker :: f else f), [(node n, l)]).
Proof.
  intros n sc l g f e H I E. destruct l as [|x l]; [discriminate|]. injection E as ->. names I; unfold put, insert, namespace_for; cbn [sk]; rewrite H; reflexivity.
Qed.
Definition repair_rest (order : list str) (name : str) (table : nat) (s : st) : st * made :=
  let to_table (s : st) := if table =? 0 then s else with_sk (keep table (sk s)) s in
  if in_strs name (map u ["col"; "colgroup"]) then
    let s := close_cell s in
    let s := with_sk (close_sections order (close_row (sk s))) s in
    let s := if negb (current_in (map u ["table"; "colgroup"]) (sk s)) then to_table s else s in
    if str_eqb name (u "col") && current_in [u "table"] (sk s) then
      let '(s, m) := putting (u "colgroup") (s, []) in (with_colg true s, m)
    else (s, [])
  else if str_eqb name (u "caption") || in_strs name section_names then
    let s := close_cell s in
    let s := with_sk (close_sections order (close_row (sk s))) s in
    (if negb (current_in [u "table"] (sk s)) then to_table s else s, [])
  else if str_eqb name (u "tr") then
    let s := close_cell s in
    let s := with_sk (close_stray (close_row (sk s))) s in
    if current_in [u "table"] (sk s) then putting (u "tbody") (s, [])
    else if negb (current_in section_names (sk s)) && negb (table =? 0) then putting (u "tbody") (to_table s, [])
    else (s, [])
  else if in_strs name cell_names then
    let s := close_cell s in
    let s := with_sk (close_stray (sk s)) s in
    let s := match find_before (u "tr") bound_table (sk s) with Some below => with_sk (keep (S (List.length below)) (sk s)) s | None => s end in
    if current_in [u "tr"] (sk s) then (s, [])
    else if current_in [u "table"] (sk s) then putting (u "tr") (putting (u "tbody") (s, []))
    else if current_in section_names (sk s) then putting (u "tr") (s, [])
    else
      let table := last_pos (named (u "table")) (sk s) in
      if table =? 0 then (s, []) else putting (u "tr") (putting (u "tbody") (with_sk (keep table (sk s)) s, []))
  else (s, []).
Lemma repair_eq : forall order name s, repair_table order name s = repair_rest order name (last_pos (named (u "table")) (sk s)) (with_sk (selected (named (u "select")) (last_pos (named (u "table")) (sk s)) (sk s)) s).
Proof.
  intros order name s. unfold repair_table, selected. cbv zeta. destruct (negb (last_pos (named (u "table")) (sk s) =? 0) && (last_pos (named (u "table")) (sk s) <? last_pos (named (u "select")) (sk s))); [reflexivity|].
  destruct s; reflexivity.
Qed.
Lemma table_back : forall c s l g f, plains c -> In s segments ->
  (let r := St (if top_kind s then c ++ s ++ l else nd "table" :: l) g f in if negb (current_in [u "table"] (sk r)) then with_sk (keep (S (List.length l)) (sk r)) r else r) = St (nd "table" :: l) g f.
Proof.
  intros c s l g f P I. cbv zeta. cbn [sk]. destruct (top_kind s) eqn:T; [|reflexivity].
  destruct (negb (current_in [u "table"] (c ++ s ++ l))) eqn:K.
  - unfold with_sk. cbn [sk colg fm]. rewrite to_table_seg by assumption. reflexivity.
  - apply negb_false_iff in K. destruct c as [|e c]; [|rewrite current_plain in K by (assumption || discriminate || concrete); discriminate K].
    cbn [app] in *. segs I; try (vm_compute in K; discriminate K); try (vm_compute in T; discriminate T). reflexivity.
Qed.
Lemma group_back : forall c s l g f, plains c -> In s segments ->
  (let r := St (if top_kind s then c ++ s ++ l else nd "table" :: l) g f in if negb (current_in (map u ["table"; "colgroup"]) (sk r)) then with_sk (keep (S (List.length l)) (sk r)) r else r)
  = St (if grouped s && match c with [] => true | _ => false end then nd "colgroup" :: nd "table" :: l else nd "table" :: l) g f.
Proof.
  intros c s l g f P I. cbv zeta. cbn [sk]. destruct (top_kind s) eqn:T.
  - destruct (negb (current_in (map u ["table"; "colgroup"]) (c ++ s ++ l))) eqn:K.
    + unfold with_sk. cbn [sk colg fm]. rewrite to_table_seg by assumption. destruct c as [|e c]; [|rewrite andb_false_r; reflexivity].
      segs I; try (vm_compute in T; discriminate T); try (vm_compute in K; discriminate K); reflexivity.
    + apply negb_false_iff in K. destruct c as [|e c]; [|rewrite current_plain in K by (assumption || discriminate || concrete); discriminate K].
      cbn [app] in *. segs I; try (vm_compute in K; discriminate K); try (vm_compute in T; discriminate T); reflexivity.
  - assert (grouped s = false) as -> by (segs I; try (vm_compute in T; discriminate T); reflexivity). reflexivity.
Qed.
(* a row or section for the tags tr, td, th *)
Lemma stray_seg : forall c s l, all_content c -> plains c -> In s segments -> cellish s = false -> close_stray (c ++ s ++ l) = match section_of s, row_of s with Some e, None => e :: nd "table" :: l | _, _ => c ++ s ++ l end.
Proof. intros c s l C P I E. unfold close_stray. rewrite skip_section by assumption. segs I; try discriminate E; reflexivity. Qed.
Lemma row_repair : forall c s l g f, all_content c -> plains c -> In s segments ->
  (let s1 := close_cell (St (c ++ s ++ l) g f) in with_sk (close_stray (close_row (sk s1))) s1) = St (match section_of s with Some e => e :: nd "table" :: l | None => c ++ s ++ l end) g (marks_after s f).
Proof.
  intros c s l g f C P I. cbv zeta. rewrite cell_closed by assumption. unfold with_sk. cbn [sk colg fm]. destruct (cellish s) eqn:E.
  - segs I; try discriminate E; reflexivity.
  - rewrite row_closed by assumption. segs I; try discriminate E; cbn [app];
    first [ reflexivity
          | match goal with |- context [close_stray (c ++ ?x :: ?y :: l)] => pose proof (stray_seg c [x; y] l C P ltac:(in_segs) eq_refl) as W; cbn [app] in W; rewrite W; reflexivity end
          | match goal with |- context [close_stray (c ++ ?x :: l)] => pose proof (stray_seg c [x] l C P ltac:(in_segs) eq_refl) as W; cbn [app] in W; rewrite W; reflexivity end ].
Qed.
Lemma put_table : forall n sc l g f, one_of ten n = true -> put n false sc (St (nd "table" :: l) g f) =
  (St (if str_eqb n (u "col") then nd "table" :: l else node n :: nd "table" :: l) g (if one_of ["td"; "th"; "caption"] n then Marker :: f else f), [(node n, nd "table" :: l)]).
Proof. intros. apply put_html with (e := nd "table"); [reflexivity|assumption|reflexivity]. Qed.
(* caption, sections, colgroup *)
Lemma code_table_like : forall order n sc c s l g f, orders order -> all_content c -> plains c -> In s segments -> one_of ["caption"; "tbody"; "thead"; "tfoot"; "colgroup"] n = true -> grouped s = false ->
  structured order n sc (St (c ++ s ++ l) g f) = (St (fst (expected n s l)) g (marked n (marks_after s f)), snd (expected n s l)).
Proof.
  intros o n sc c s l g f O C P I N G. unfold structured. rewrite repair_eq. cbn [sk]. rewrite skip_last by (assumption || concrete). rewrite pos_table by assumption.
  destruct (selected_content (named (u "select")) c s l I select_ten) as (x & c' & -> & E). rewrite E. unfold with_sk. cbn [sk colg fm].
  apply suffix_content in C. apply plains_suffix in P. clear E x.
  assert (repair_rest o n (S (List.length l)) (St (c' ++ s ++ l) g f) = (St (nd "table" :: l) g (marks_after s f), [])) as ->.
  { unfold repair_rest. pose proof (down o c' s l g f O C P I) as D. cbv zeta in D.
    pose proof (table_back c' s l g (marks_after s f) P I) as B. cbv zeta in B. pose proof (group_back c' s l g (marks_after s f) P I) as B'. cbv zeta in B'. rewrite G in B'. cbn [andb] in B'.
    names N; cbv zeta;
    match goal with |- (if ?t then _ else _) = _ => let b := eval vm_compute in t in change t with b end; cbv iota;
    try match goal with |- (if ?t then _ else _) = _ => let b := eval vm_compute in t in change t with b end; cbv iota; rewrite D; change (S (List.length l) =? 0) with false; cbv iota;
    first [ rewrite B; reflexivity | rewrite B'; reflexivity ]. }
  cbn [sk]. assert (fits n (nd "table" :: l) = true) as -> by (names N; reflexivity). rewrite put_table by (names N; reflexivity). names N; reflexivity.
Qed.
Lemma code_col : forall order sc c s l g f, orders order -> all_content c -> plains c -> In s segments -> (grouped s = true -> c = []) ->
  structured order (u "col") sc (St (c ++ s ++ l) g f) = (St (fst (expected (u "col") s l)) (if grouped s then g else true) (marks_after s f), snd (expected (u "col") s l)).
Proof.
  intros o sc c s l g f O C P I G. unfold structured. rewrite repair_eq. cbn [sk]. rewrite skip_last by (assumption || concrete). rewrite pos_table by assumption.
  destruct (selected_content (named (u "select")) c s l I select_ten) as (x & c' & -> & E). rewrite E. unfold with_sk. cbn [sk colg fm].
  apply suffix_content in C. apply plains_suffix in P. clear E.
  unfold repair_rest. pose proof (down o c' s l g f O C P I) as D. cbv zeta in D. pose proof (group_back c' s l g (marks_after s f) P I) as B'. cbv zeta in B'.
  cbv zeta. change (in_strs (u "col") (map u ["col"; "colgroup"])) with true. cbv iota. rewrite D. change (S (List.length l) =? 0) with false. cbv iota. rewrite B'. clear D B'.
  destruct (grouped s) eqn:Gs.
  - specialize (G eq_refl). apply app_eq_nil in G as [-> ->]. cbn [andb sk]. segs I; try (vm_compute in Gs; discriminate Gs). reflexivity.
  - cbn [andb sk]. change (str_eqb (u "col") (u "col") && current_in [u "table"] (nd "table" :: l)) with true. cbv iota. unfold putting. rewrite put_table by reflexivity. unfold expected. rewrite Gs. reflexivity.
Qed.
Lemma code_tr : forall order sc c s l g f, all_content c -> plains c -> In s segments ->
  structured order (u "tr") sc (St (c ++ s ++ l) g f) = (St (fst (expected (u "tr") s l)) g (marks_after s f), snd (expected (u "tr") s l)).
Proof.
  intros o sc c s l g f C P I. unfold structured. rewrite repair_eq. cbn [sk]. rewrite skip_last by (assumption || concrete). rewrite pos_table by assumption.
  destruct (selected_content (named (u "select")) c s l I select_ten) as (x & c' & -> & E). rewrite E. unfold with_sk. cbn [sk colg fm].
  apply suffix_content in C. apply plains_suffix in P. clear E.
  unfold repair_rest. pose proof (row_repair c' s l g f C P I) as D. cbv zeta in D. cbv zeta.
  change (in_strs (u "tr") (map u ["col"; "colgroup"])) with false. change (str_eqb (u "tr") (u "caption") || in_strs (u "tr") section_names) with false. change (str_eqb (u "tr") (u "tr")) with true. cbv iota.
  rewrite D. clear D. cbn [sk]. unfold expected. change (one_of ["col"] (u "tr")) with false. change (one_of ["tr"] (u "tr")) with true. cbv iota. unfold with_section. destruct (section_of s) as [e|] eqn:Se.
  - assert (name_in section_names e = true) as Ne by (apply find_some in Se as [_ Se]; exact Se).
    assert (html e = true) as He by (segs I; try discriminate Se; injection Se as <-; reflexivity).
    assert (current_in [u "table"] (e :: nd "table" :: l) = false) as -> by (cbn [current_in]; refine (in_apart _ _ Ne _ _); concrete). cbn [current_in]. rewrite Ne. cbn [negb andb].
    assert (fits (u "tr") (e :: nd "table" :: l) = true) as Fe by exact Ne. cbn [sk]. rewrite Fe.
    rewrite (put_html (u "tr") sc (e :: nd "table" :: l) g (marks_after s f) e He eq_refl eq_refl). reflexivity.
  - destruct (current_in [u "table"] (c' ++ s ++ l)) eqn:K.
    + destruct c' as [|e c']; [|rewrite current_plain in K by (assumption || discriminate || concrete); discriminate K].
      cbn [app] in *. segs I; try (vm_compute in K; discriminate K); try (vm_compute in Se; discriminate Se).
      unfold putting. rewrite put_table by reflexivity. reflexivity.
    + assert (current_in section_names (c' ++ s ++ l) = false) as ->.
      { destruct c' as [|e c']; [|rewrite current_plain by (assumption || discriminate || concrete); reflexivity]. cbn [app]. segs I; try (vm_compute in Se; discriminate Se); reflexivity. }
      change (negb (S (List.length l) =? 0)) with true. change (S (List.length l) =? 0) with false. cbn [negb andb]. unfold with_sk. cbn [sk colg fm]. rewrite to_table_seg by assumption. unfold putting. rewrite put_table by reflexivity. reflexivity.
Qed.
Lemma code_cell : forall order n sc c s l g f, all_content c -> plains c -> In s segments -> one_of ["td"; "th"] n = true -> (row_of s <> None -> cellish s = false -> existsb point c = false) ->
  structured order n sc (St (c ++ s ++ l) g f) = (St (fst (expected n s l)) g (marked n (marks_after s f)), snd (expected n s l)).
Proof.
  intros o n sc c s l g f C P I N K. unfold structured. rewrite repair_eq. cbn [sk]. rewrite skip_last by (assumption || concrete). rewrite pos_table by assumption.
  destruct (selected_content (named (u "select")) c s l I select_ten) as (x & c' & -> & E). rewrite E. unfold with_sk. cbn [sk colg fm].
  apply suffix_content in C. apply plains_suffix in P. clear E.
  assert (row_of s <> None -> cellish s = false -> existsb point c' = false) as K' by (intros A B; specialize (K A B); rewrite existsb_app in K; apply orb_false_iff in K; tauto). clear K.
  assert (repair_rest o n (S (List.length l)) (St (c' ++ s ++ l) g f) = (St (fst (with_row s l)) g (marks_after s f), snd (with_row s l))) as ->.
  { unfold repair_rest. cbv zeta. assert (in_strs n (map u ["col"; "colgroup"]) = false /\ str_eqb n (u "caption") || in_strs n section_names = false /\ str_eqb n (u "tr") = false /\ in_strs n cell_names = true) as (-> & -> & -> & ->) by (names N; repeat split; reflexivity).
    rewrite cell_closed by assumption. unfold with_sk. cbn [sk colg fm]. destruct (cellish s) eqn:Es.
    - segs I; try discriminate Es; cbn [tl app];
      match goal with |- context [close_stray (?a :: ?k)] => change (close_stray (a :: k)) with (a :: k); change (find_before (u "tr") bound_table (a :: k)) with (Some k); cbv iota; unfold with_sk; cbn [sk colg fm]; rewrite (keep_app [] (a :: k) : keep (S (List.length k)) (a :: k) = a :: k) end; reflexivity.
    - rewrite stray_seg by assumption. destruct (section_of s) as [e|] eqn:Se; destruct (row_of s) as [r|] eqn:Re.
      + rewrite skip_before by (assumption || concrete). rewrite (K' ltac:(discriminate) eq_refl). segs I; try discriminate Es; try discriminate Re;
        match goal with |- context [find_before ?a ?b (?x :: ?k)] => change (find_before a b (x :: k)) with (Some k); cbv iota; unfold with_sk; cbn [sk colg fm]; rewrite (keep_app c' (x :: k) : keep (S (List.length k)) (c' ++ x :: k) = x :: k) end; reflexivity.
      + segs I; try discriminate Es; try discriminate Re; try discriminate Se; injection Se as <-; unfold putting; cbn; reflexivity.
      + segs I; try discriminate Es; try discriminate Re; discriminate Se.
      + rewrite skip_before by (assumption || concrete). assert (find_before (u "tr") bound_table (s ++ l) = None) as -> by (segs I; try discriminate Es; try discriminate Re; try discriminate Se; reflexivity).
        assert ((if existsb point c' then None else @None stack) = None) as -> by (destruct (existsb point c'); reflexivity). cbn [sk].
        assert (current_in [u "tr"] (c' ++ s ++ l) = false) as ->.
        { destruct c' as [|e c']; [|rewrite current_plain by (assumption || discriminate || concrete); reflexivity]. cbn [app]. segs I; try discriminate Es; try discriminate Re; try discriminate Se; reflexivity. }
        assert (current_in section_names (c' ++ s ++ l) = false) as ->.
        { destruct c' as [|e c']; [|rewrite current_plain by (assumption || discriminate || concrete); reflexivity]. cbn [app]. segs I; try discriminate Es; try discriminate Re; try discriminate Se; reflexivity. }
        assert (with_row s l = (nd "tr" :: nd "tbody" :: nd "table" :: l, [(nd "tbody", nd "table" :: l); (nd "tr", nd "tbody" :: nd "table" :: l)])) as -> by (unfold with_row, with_section; rewrite Se, Re; reflexivity).
        destruct (current_in [u "table"] (c' ++ s ++ l)) eqn:Kt.
        * destruct c' as [|e c']; [|rewrite current_plain in Kt by (assumption || discriminate || concrete); discriminate Kt].
          cbn [app] in *. segs I; try (vm_compute in Kt; discriminate Kt); try discriminate Se. reflexivity.
        * rewrite skip_last by (assumption || concrete). rewrite pos_table by assumption. change (S (List.length l) =? 0) with false. cbv iota. rewrite to_table_seg by assumption. reflexivity. }
  assert (exists e k, fst (with_row s l) = e :: k /\ html e = true /\ en e = u "tr") as (e & k & E1 & E2 & E3) by (segs I; eexists _, _; repeat split; reflexivity).
  assert (fits n (fst (with_row s l)) = true) as Fe.
  { rewrite E1. assert (fits n (e :: k) = current_in [u "tr"] (e :: k)) as -> by (names N; reflexivity). cbn [current_in]. unfold name_in. rewrite E3. reflexivity. }
  cbn [sk]. rewrite Fe. rewrite (put_html n sc _ g (marks_after s f) e E2) by (names N; reflexivity || rewrite E1; reflexivity).
  unfold expected. destruct (with_row s l) as [kk mm]. names N; reflexivity.
Qed.
