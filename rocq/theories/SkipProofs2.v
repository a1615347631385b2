(* Proofs about SkipModel: the source of an element is scanned to its end *)
From Coq Require Import NArith List Bool String Lia ZifyBool ZifyN ZifyNat.
From Verif Require Import Str StrFacts ScanModel RawTextSpec ScanRawProofs ScanFirst GuardModel SkipModel SkipSpec SkipProofs.
Import ListNotations.
Open Scope list_scope.
Open Scope N_scope.

(* ---------- names ---------- *)
Lemma alow_not_ascii c : 128 <= c -> alow_c c = c.
Proof. unfold alow_c, is_upper_ascii. intros H. replace ((65 <=? c) && (c <=? 90)) with false by lia. reflexivity. Qed.
Lemma fold_iff strict n t : (strict = false -> existsb odd_letter n = false) -> is_ascii t = true -> (fold strict n = t <-> alow n = t).
Proof.
  intros O A. unfold fold. destruct strict; [tauto|]. specialize (O eq_refl).
  destruct (is_ascii n) eqn:I; [rewrite (lower_ascii _ I); tauto|].
  assert (X : exists c, In c n /\ 128 <= c).
  { clear -I. induction n as [|c n IH]; [discriminate|]. cbn in I. destruct (is_ascii_char c) eqn:C; cbn in I; [destruct (IH I) as (x & ? & ?); exists x; split; [right|]; assumption|].
    exists c. split; [left; reflexivity|]. unfold is_ascii_char in C. lia. }
  destruct X as (c & IC & LC). unfold is_ascii in A. rewrite forallb_forall in A.
  assert (K : odd_letter c = false). { destruct (odd_letter c) eqn:E; [|reflexivity]. rewrite <- O. symmetry. apply existsb_exists. eauto. }
  unfold odd_letter in K. split; intros <-; exfalso.
  - destruct (lower_c_nonascii c LC) as (d & E & LD); [lia|lia|]. assert (H : In d (lower n)) by (unfold lower; apply in_flat_map; exists c; rewrite E; split; [exact IC|left; reflexivity]).
    specialize (A _ H). unfold is_ascii_char in A. lia.
  - assert (H : In (alow_c c) (alow n)) by (apply in_map; exact IC). rewrite (alow_not_ascii c LC) in H. specialize (A _ H). unfold is_ascii_char in A. lia.
Qed.

Lemma fold_eqb strict n t : (strict = false -> existsb odd_letter n = false) -> is_ascii t = true -> str_eqb (fold strict n) t = str_eqb (alow n) t.
Proof.
  intros O A. pose proof (fold_iff strict n t O A) as H. destruct (str_eqb (alow n) t) eqn:E.
  - apply str_eqb_eq. apply H. apply str_eqb_eq. exact E.
  - apply str_eqb_neq. intros K. apply H in K. apply str_eqb_neq in E. exact (E K).
Qed.
Lemma fold_in strict n l : (strict = false -> existsb odd_letter n = false) -> forallb is_ascii l = true -> in_strs (fold strict n) l = in_strs (alow n) l.
Proof.
  intros O. unfold in_strs. induction l as [|t l IH]; cbn; intros A; [reflexivity|]. apply andb_true_iff in A as [A1 A2].
  rewrite (fold_eqb _ _ _ O A1), (IH A2). reflexivity.
Qed.
Lemma not_in l n : plain_name n = true -> forallb (fun t => in_strs t special_names) l = true -> in_strs (alow n) l = false.
Proof.
  unfold plain_name. rewrite negb_true_iff. intros P F. destruct (in_strs (alow n) l) eqn:E; [|reflexivity]. apply in_strs_In in E.
  rewrite forallb_forall in F. specialize (F _ E). unfold in_strs in F. rewrite P in F. discriminate F.
Qed.

Lemma plain_lists scripting strict n : plain_name n = true -> (strict = false -> existsb odd_letter n = false) ->
  in_strs (fold strict n) breakout_names = false /\ in_strs (fold strict n) table_end_tags = false /\ in_strs (fold strict n) full_parse_tags = false
  /\ in_strs (fold strict n) plaintext_tags = false /\ in_strs (fold strict n) rcdata_tags = false /\ in_strs (fold strict n) drop_content = false
  /\ in_strs (fold strict n) (rawtext_as_text scripting) = false.
Proof.
  intros P O. repeat split; (rewrite fold_in by first [exact O|vm_compute; reflexivity|destruct scripting; vm_compute; reflexivity]);
    apply not_in; first [exact P|vm_compute; reflexivity|destruct scripting; vm_compute; reflexivity].
Qed.

Lemma tag_name_of n y : is_name n = true -> match y with c :: _ => name_stop c = true | [] => True end -> tag_name (n ++ y) = (n, y).
Proof.
  unfold is_name. intros H Y. apply andb_true_iff in H as [L C]. destruct n as [|c n]; [discriminate|]. unfold tag_name. cbn [app].
  unfold letter. rewrite L. change (c :: n ++ y) with ((c :: n) ++ y). revert C. generalize (c :: n). clear -Y. intros m C.
  induction m as [|x m IH].
  - cbn [app]. destruct y as [|c y]; [reflexivity|]. cbn [take_while drop_while]. rewrite Y. reflexivity.
  - cbn [forallb] in C. apply andb_true_iff in C as [C1 C2]. specialize (IH C2). apply pair_equal_spec in IH as [I1 I2].
    assert (E : negb (name_stop x) = true) by (unfold name_stop, mem; cbn [existsb] in *; lia).
    cbn [app take_while drop_while]. rewrite E, I1, I2. reflexivity.
Qed.

Section scan.
Variables strict scripting : bool.
Variable root : str.
Hypothesis root_is : root = u "svg" \/ root = u "math".
Notation markup := (markup strict scripting root).
Notation run := (run strict scripting root).
Definition regular (n : str) : Prop := strict = false -> existsb odd_letter n = false.

Lemma find_gt x rest : existsb (N.eqb 62) x = false -> match find_char 62 (x ++ 62 :: rest) with None => [] | Some k => skipn (S k) (x ++ 62 :: rest) end = rest.
Proof.
  intros H. rewrite find_char_app by exact H. cbn [find_char]. rewrite N.eqb_refl. cbn [option_map].
  clear. induction x; [reflexivity|exact IHx].
Qed.

Lemma head_ok x : match x with c :: _ => name_stop c = true | [] => True end -> forall rest : str, match x ++ 62 :: rest with c :: _ => name_stop c = true | [] => True end.
Proof. intros H rest. destruct x; [reflexivity|exact H]. Qed.

Lemma same_root n : regular n -> str_eqb (fold strict n) root = str_eqb (alow n) root.
Proof. intros R. apply fold_eqb; [exact R|]. destruct root_is as [-> | ->]; reflexivity. Qed.

Lemma open_tag d n x rest : is_name n = true -> regular n -> str_eqb (alow n) root || plain_name n = true ->
  existsb (N.eqb 62) x = false -> match x with c :: _ => name_stop c = true | [] => True end ->
  run (S d) (60 :: n ++ x ++ 62 :: rest) = run (if str_eqb (alow n) root then S (S d) else S d) rest.
Proof.
  intros N R P X H. rewrite run_lt. unfold SkipModel.markup.
  assert (HN : exists c m, n = c :: m /\ c <> 33 /\ c <> 47).
  { unfold is_name in N. destruct n as [|c m]; [discriminate|]. exists c, m. split; [reflexivity|]. apply andb_true_iff in N as [N _].
    unfold is_alpha_ascii, is_upper_ascii, is_lower_ascii in N. lia. }
  destruct HN as (c & m & EN & N33 & N47).
  assert (T := tag_name_of n (x ++ 62 :: rest) N (head_ok x H rest)).
  assert (E : n ++ x ++ 62 :: rest = c :: (m ++ x ++ 62 :: rest)) by (rewrite EN; reflexivity). rewrite E in *.
  replace (c =? 33) with false by lia. replace (c =? 47) with false by lia. cbn [andb]. cbv iota beta. rewrite T. subst n. cbv zeta iota beta.
  rewrite (find_gt x rest X), (same_root (c :: m) R). cbn [negb andb].
  destruct (str_eqb (alow (c :: m)) root); [reflexivity|]. cbn [orb] in P. destruct (plain_lists scripting strict (c :: m) P R) as (_ & _ & L1 & L2 & L3 & L4 & L5).
  rewrite L1, L2, L3, L4, L5. reflexivity.
Qed.

Lemma close_tag d n x rest : is_name n = true -> regular n -> str_eqb (alow n) root || plain_name n = true ->
  existsb (N.eqb 62) x = false -> match x with c :: _ => name_stop c = true | [] => True end ->
  run (S d) (60 :: 47 :: n ++ x ++ 62 :: rest) = run (if str_eqb (alow n) root then d else S d) rest.
Proof.
  intros N R P X H. rewrite run_lt. unfold SkipModel.markup.
  change ((47 =? 33) && _)%bool with false. change (47 =? 47) with true. cbv iota.
  cbv iota beta. rewrite (tag_name_of n (x ++ 62 :: rest) N (head_ok x H rest)). cbv zeta iota beta. destruct n as [|c m]; [discriminate N|]. cbv iota beta.
  rewrite (find_gt x rest X), (same_root (c :: m) R). cbn [negb andb].
  destruct (str_eqb (alow (c :: m)) root); [reflexivity|]. cbn [orb] in P. destruct (plain_lists scripting strict (c :: m) P R) as (L1 & L2 & _).
  rewrite L1, L2. reflexivity.
Qed.

Lemma comment_run d s rest : existsb (N.eqb 60) s = false -> run (S d) (u "<!--" ++ s ++ u "-->" ++ rest) = run (S d) rest.
Proof.
  intros H. change (u "<!--" ++ s ++ u "-->" ++ rest) with (60 :: (u "!--" ++ s ++ u "-->" ++ rest)). rewrite run_lt. unfold SkipModel.markup.
  replace (match u "!--" ++ s ++ u "-->" ++ rest with c :: _ => _ | [] => false end) with false.
  2: { change (u "!--" ++ s ++ u "-->" ++ rest) with (33 :: 45 :: 45 :: s ++ u "-->" ++ rest). rewrite startswith_hits by reflexivity. reflexivity. }
  change (match u "!--" ++ s ++ u "-->" ++ rest with c :: t => if c =? 47 then (true, t) else (false, u "!--" ++ s ++ u "-->" ++ rest) | [] => (false, u "!--" ++ s ++ u "-->" ++ rest) end)
    with (false, u "!--" ++ s ++ u "-->" ++ rest). cbv iota.
  change (tag_name (u "!--" ++ s ++ u "-->" ++ rest)) with (@nil N, u "!--" ++ s ++ u "-->" ++ rest). cbv iota.
  rewrite (app_assoc s), app_assoc. apply run_chars. rewrite !existsb_app, H. reflexivity.
Qed.

Lemma find_close s rest : contains (u "]]>") s = false -> find (u "]]>") (s ++ u "]]>" ++ rest) = Some (List.length s).
Proof.
  unfold contains. induction s as [|c s IH]; [reflexivity|]. intros H. cbn [app find].
  assert (F : find (u "]]>") s = None) by (cbn [find] in H; destruct (starts (u "]]>") (c :: s)); [discriminate|]; destruct (find (u "]]>") s); [discriminate|reflexivity]).
  rewrite F in IH. rewrite (IH eq_refl). cbn [option_map List.length].
  replace (starts (u "]]>") (c :: s ++ u "]]>" ++ rest)) with false; [reflexivity|]. symmetry.
  cbn [find] in H. destruct (starts (u "]]>") (c :: s)) eqn:E; [discriminate|]. clear -E.
  destruct s as [|a [|b s]]; [cbn; rewrite ?andb_false_r; reflexivity|cbn; rewrite ?andb_false_r; reflexivity|exact E].
Qed.

Lemma cdata_run d s rest : contains (u "]]>") s = false -> run (S d) (u "<![CDATA[" ++ s ++ u "]]>" ++ rest) = run (S d) rest.
Proof.
  intros H. change (u "<![CDATA[" ++ s ++ u "]]>" ++ rest) with (60 :: (u "![CDATA[" ++ s ++ u "]]>" ++ rest)). rewrite run_lt. unfold SkipModel.markup.
  replace (match u "![CDATA[" ++ s ++ u "]]>" ++ rest with c :: _ => _ | [] => false end) with true.
  2: { change (u "![CDATA[" ++ s ++ u "]]>" ++ rest) with (33 :: u "[CDATA[" ++ s ++ u "]]>" ++ rest). rewrite startswith_hits by reflexivity. reflexivity. }
  change (skipn 8 (u "![CDATA[" ++ s ++ u "]]>" ++ rest)) with (s ++ u "]]>" ++ rest). rewrite (find_close s rest H). cbv iota. f_equal.
  clear. induction s; [reflexivity|exact IHs].
Qed.

Lemma attrs_no_gt a : forallb good_attr a = true -> forallb plain_attr a = true -> existsb (N.eqb 62) (source_attrs a) = false.
Proof.
  induction a as [|[k v] a IH]; [reflexivity|]. cbn [forallb source_attrs flat_map]. intros G P. apply andb_true_iff in G as [G G'], P as [P P'].
  rewrite existsb_app. unfold source_attrs in IH. rewrite (IH G' P'). rewrite orb_false_r. cbn [fst snd] in *. unfold good_attr, plain_attr in *. cbn [fst snd] in *.
  apply andb_true_iff in G as [G _]. apply andb_true_iff in G as [_ G]. apply negb_true_iff in P.
  assert (K : existsb (N.eqb 62) k = false).
  { clear -G. induction k as [|c k IH]; [reflexivity|]. cbn [forallb] in G. apply andb_true_iff in G as [G1 G2]. cbn [existsb]. rewrite (IH G2).
    unfold attribute_char in G1. cbn [existsb] in G1. lia. }
  rewrite !existsb_app. cbn [existsb]. rewrite K, P. reflexivity.
Qed.
Lemma attrs_head a : match source_attrs a with c :: _ => name_stop c = true | [] => True end.
Proof. destruct a; reflexivity. Qed.

Lemma piece_ind' (P : piece -> Prop) : (forall s, P (Chars s)) -> (forall s, P (Comment s)) -> (forall s, P (Cdata s)) ->
  (forall n a kids, Forall P kids -> P (Elem n a kids)) -> (forall n a, P (Empty n a)) -> forall p, P p.
Proof.
  intros A B C D E. fix IH 1. intros p. destruct p as [s|s|s|n a kids|n a]; [apply A|apply B|apply C| |apply E].
  apply D. revert kids. fix IHk 1. intros kids. destruct kids as [|k kids]; constructor; [apply IH|apply IHk].
Qed.

Lemma odd_app a b : (strict = false -> existsb odd_letter (a ++ b) = false) -> regular a /\ regular b.
Proof. unfold regular. intros H. split; intros S; specialize (H S); rewrite existsb_app in H; apply orb_false_iff in H; apply H. Qed.

Lemma list_run l : Forall (fun p => good p = true -> plain root p = true -> regular (source p) -> forall d rest, run (S d) (source p ++ rest) = run (S d) rest) l ->
  forallb good l = true -> forallb (plain root) l = true -> regular (sources l) -> forall d rest, run (S d) (sources l ++ rest) = run (S d) rest.
Proof.
  induction 1 as [|p l H F IH]; [reflexivity|]. cbn [forallb sources flat_map]. intros G P R d rest. apply andb_true_iff in G as [G G'], P as [P P'].
  apply odd_app in R as [R R']. rewrite <- app_assoc, (H G P R). apply IH; assumption.
Qed.

Lemma piece_run p : good p = true -> plain root p = true -> regular (source p) -> forall d rest, run (S d) (source p ++ rest) = run (S d) rest.
Proof.
  induction p as [s|s|s|n a kids IH|n a] using piece_ind'; cbn [good plain source]; intros G P R d rest.
  - apply run_chars. apply negb_true_iff. exact G.
  - rewrite <- !app_assoc. apply comment_run. apply negb_true_iff. exact P.
  - rewrite <- !app_assoc. apply cdata_run. apply negb_true_iff. exact G.
  - apply andb_true_iff in G as [G GK]. apply andb_true_iff in G as [GN GA]. apply andb_true_iff in P as [P PK]. apply andb_true_iff in P as [PN PA].
    apply odd_app in R as [_ R]. apply odd_app in R as [RN R]. apply odd_app in R as [_ R]. apply odd_app in R as [_ R]. apply odd_app in R as [RK _].
    replace (([60] ++ n ++ source_attrs a ++ [62] ++ flat_map source kids ++ [60; 47] ++ n ++ [62]) ++ rest)
      with (60 :: n ++ source_attrs a ++ 62 :: (sources kids ++ 60 :: 47 :: n ++ [] ++ 62 :: rest))
      by (unfold sources; repeat (rewrite <- app_assoc || cbn [app]); reflexivity).
    rewrite (open_tag d n (source_attrs a) _ GN RN PN (attrs_no_gt a GA PA) (attrs_head a)).
    destruct (str_eqb (alow n) root) eqn:E; rewrite (list_run kids IH GK PK RK), close_tag; try reflexivity; try assumption; rewrite ?E; try reflexivity; exact PN.
  - apply andb_true_iff in G as [GN GA]. apply andb_true_iff in P as [P PA]. apply andb_true_iff in P as [NR PN].
    apply odd_app in R as [_ R]. apply odd_app in R as [RN _].
    replace (([60] ++ n ++ source_attrs a ++ [47; 62]) ++ rest) with (60 :: n ++ (source_attrs a ++ [47]) ++ 62 :: rest)
      by (repeat (rewrite <- app_assoc || cbn [app]); reflexivity).
    rewrite open_tag; [|exact GN|exact RN|rewrite PN; apply orb_true_r| |].
    + apply negb_true_iff in NR. rewrite NR. reflexivity.
    + rewrite existsb_app, (attrs_no_gt a GA PA). reflexivity.
    + destruct a; reflexivity.
Qed.

Lemma subtree l n sp rest : forallb good l = true -> forallb (plain root) l = true -> regular (sources l) -> regular n ->
  alow n = root -> spaces sp = true -> run 1 (sources l ++ [60; 47] ++ n ++ sp ++ [62] ++ rest) = run 0 rest.
Proof.
  intros G P R RN E S. rewrite list_run; try assumption; [|apply Forall_forall; intros p _; apply piece_run].
  change ([60; 47] ++ n ++ sp ++ [62] ++ rest) with (60 :: 47 :: n ++ sp ++ 62 :: rest). rewrite close_tag; rewrite ?E, ?str_eqb_refl; try reflexivity; try assumption.
  - assert (N : forall m, alow m = root -> is_name m = true); [|apply N; exact E]. clear -root_is.
    intros m E. assert (K : forall c x, alow_c c = x -> (97 <=? x) && (x <=? 122) = true -> is_alpha_ascii c = true).
    { intros c x <- H. unfold alow_c, is_alpha_ascii, is_lower_ascii in *. destruct (is_upper_ascii c); lia. }
    assert (F : forallb is_alpha_ascii m = true).
    { assert (L : forallb (fun x => (97 <=? x) && (x <=? 122)) (alow m) = true) by (rewrite E; destruct root_is as [-> | ->]; reflexivity).
      clear E. induction m as [|c m IH]; [reflexivity|]. cbn [alow map forallb] in *. apply andb_true_iff in L as [L1 L2].
      rewrite (K c _ eq_refl L1). apply IH. exact L2. }
    destruct m as [|c m]; [destruct root_is as [-> | ->]; discriminate E|]. unfold is_name.
    rewrite forallb_forall in F. rewrite (F c (or_introl eq_refl)). apply forallb_forall. intros x I. specialize (F x I).
    unfold is_alpha_ascii, is_upper_ascii, is_lower_ascii in F. cbn [existsb]. lia.
  - clear -S. induction sp as [|c sp IH]; [reflexivity|]. cbn [spaces forallb] in S. apply andb_true_iff in S as [S1 S2]. cbn [existsb]. rewrite (IH S2).
    cbn [existsb] in S1. lia.
  - clear -S. destruct sp as [|c sp]; [trivial|]. cbn [spaces forallb] in S. apply andb_true_iff in S as [S1 _]. unfold name_stop, mem. cbn [existsb] in *. lia.
Qed.

Lemma space_same c : mem c SPACE = existsb (N.eqb c) [9; 10; 12; 13; 32].
Proof. unfold SPACE, mem. cbn [existsb]. lia. Qed.
Lemma end_run rest : (frameset_next rest -> run 0 rest = Full) /\ (~ frameset_next rest -> run 0 rest = At rest).
Proof.
  assert (E : run 0 rest = if ascii_startswith (u "<frameset") (drop_while (fun c => mem c SPACE) rest) then Full else At rest) by reflexivity.
  rewrite E. rewrite startswith_hits by reflexivity. unfold hits.
  destruct (strip_ci (u "<frameset") (drop_while (fun c => mem c SPACE) rest)) as [r|] eqn:H.
  - split; [reflexivity|]. intros K. exfalso. apply K. apply strip_some in H as (L & _ & A).
    exists (take_while (fun c => mem c SPACE) rest), (firstn 9 (drop_while (fun c => mem c SPACE) rest)), (skipn 9 (drop_while (fun c => mem c SPACE) rest)).
    split; [rewrite firstn_skipn; apply drop_while_app|]. split; [|exact A].
    unfold spaces. pose proof (take_while_all (fun c => mem c SPACE) rest) as T. rewrite forallb_forall in *. intros c I. rewrite <- space_same. apply T. exact I.
  - split; [|reflexivity]. intros (sp & f & r & -> & SP & F). exfalso.
    assert (D : drop_while (fun c => mem c SPACE) (sp ++ f ++ r) = f ++ r).
    { clear H E. induction sp as [|c sp IH].
      - cbn [app]. destruct f as [|c f]; [discriminate F|]. cbn [app]. apply drop_while_id. intros x t Q. inversion Q; subst.
        cbn [alow map] in F. change (u "<frameset") with (60 :: u "frameset") in F; injection F as X _. unfold alow_c, is_upper_ascii in X. unfold SPACE, mem. cbn [existsb].
        destruct ((65 <=? x) && (x <=? 90)) eqn:B; lia.
      - cbn [spaces forallb] in SP. apply andb_true_iff in SP as [S1 S2]. cbn [app drop_while]. rewrite space_same, S1. apply IH. exact S2. }
    rewrite D in H. assert (LF : List.length f = 9%nat) by (apply (f_equal (@List.length N)) in F; unfold alow in F; rewrite map_length in F; exact F).
    rewrite strip_of in H; [discriminate|rewrite app_length, LF; cbn; lia|].
    change (List.length (u "<frameset")) with 9%nat. rewrite firstn_app, LF, Nat.sub_diag, firstn_O, app_nil_r. rewrite firstn_all2 by lia. exact F.
Qed.
End scan.
