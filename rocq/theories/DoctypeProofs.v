(* PROOFS: doctypes *)
From Coq Require Import Lia ZifyBool ZifyN ZifyNat.
From Verif Require Import Str StrFacts LinkModel LinkProofs DoctypeModel DoctypeSpec.
Open Scope N_scope.

Definition clean (s : str) : Prop := forall c, In c s -> c <> 62 /\ c <> 13 /\ c <> 0.
Lemma clean_cons c s : clean (c :: s) -> (c <> 62 /\ c <> 13 /\ c <> 0) /\ clean s.
Proof. intros H. split; [apply H; left; reflexivity|]. intros x I. apply H. right. exact I. Qed.
Lemma clean_skipn n s : clean s -> clean (skipn n s).
Proof. intros H c I. apply H. rewrite <- (firstn_skipn n s). apply in_or_app. right. exact I. Qed.
Lemma ws_html c : c <> 13 -> is_html_space c = ws c.
Proof. unfold is_html_space, ws. lia. Qed.
Lemma fffd_id c : c <> 0 -> fffd c = c.
Proof. unfold fffd. destruct (N.eqb_spec c 0); [contradiction|reflexivity]. Qed.
Definition tail_ok (t : str) : Prop := t = [] \/ exists r, t = 62 :: r.
Lemma bogus_id s : forall k, fst (tokenize Bogus k s) = k.
Proof. induction s as [|c s IH]; intros k; [reflexivity|]. cbn [tokenize]. destruct (c =? 62); [reflexivity|apply IH]. Qed.
Lemma forced s k : t_force (fst (tokenize Bogus (force k) s)) = false -> False.
Proof. rewrite bogus_id. discriminate. Qed.
Lemma after_system_id s : forall k, t_force (fst (tokenize AfterSystemId k s)) = false -> fst (tokenize AfterSystemId k s) = k.
Proof.
  induction s as [|c s IH]; intros k H; [discriminate H|]. cbn [tokenize] in *. destruct (ws c); [apply IH; exact H|]. destruct (c =? 62); [reflexivity|apply bogus_id].
Qed.
Lemma system_id q raw tail : (q =? 62) = false -> tail_ok tail -> clean raw -> forall k v, t_system k = Some v -> t_force (fst (tokenize (SystemId q) k (raw ++ tail))) = false ->
  exists i, find_char q raw = Some i /\ fst (tokenize (SystemId q) k (raw ++ tail)) = set_system k (Some (v ++ firstn i raw)).
Proof.
  intros Q T. induction raw as [|c raw IH]; intros C k v V H.
  - cbn [app] in *. exfalso. destruct T as [->|(r & ->)]; [discriminate H|]. cbn [tokenize] in H. rewrite N.eqb_sym, Q in H. discriminate H.
  - destruct (clean_cons _ _ C) as [(C1 & C2 & C3) C']. cbn [app tokenize find_char] in *. destruct (c =? q) eqn:E.
    + exists O. split; [reflexivity|]. rewrite (after_system_id _ _ H). cbn [firstn]. rewrite app_nil_r. assert (K : set_system k (Some v) = k) by (rewrite <- V; destruct k; reflexivity). symmetry. exact K.
    + destruct (N.eqb_spec c 62); [contradiction|]. rewrite V in *. cbn [add] in *. rewrite (fffd_id c C3) in *. destruct (IH C' (set_system k (Some (v ++ [c]))) (v ++ [c]) eq_refl H) as (i & Hi & R). rewrite Hi. exists (S i). split; [reflexivity|]. rewrite R. cbn [firstn]. rewrite <- app_assoc. reflexivity.
Qed.
Lemma quote_char c : (c =? 34) || (c =? 39) = true -> (c =? 62) = false.
Proof. lia. Qed.
Lemma quoted_some c s i : (c =? 34) || (c =? 39) = true -> find_char c s = Some i -> quoted (c :: s) = Some (firstn i s, skipn (S i) s).
Proof. intros Q F. unfold quoted. rewrite Q, F. reflexivity. Qed.
Lemma system_keyword raw tail k : tail_ok tail -> clean raw -> t_force (fst (tokenize AfterSystemKeyword k (raw ++ tail))) = false ->
  exists i r, quoted (skip_ws raw) = Some (i, r) /\ fst (tokenize AfterSystemKeyword k (raw ++ tail)) = set_system k (Some i).
Proof.
  intros T. induction raw as [|c raw IH]; intros C H.
  - cbn [app] in *. exfalso. destruct T as [->|(r & ->)]; [discriminate H|]. cbn [tokenize] in H. discriminate H.
  - destruct (clean_cons _ _ C) as [(C1 & C2 & C3) C']. unfold skip_ws. cbn [app tokenize drop_while] in *. rewrite (ws_html c C2). destruct (ws c); [exact (IH C' H)|].
    destruct ((c =? 34) || (c =? 39)) eqn:Q.
    + destruct (system_id c raw tail (quote_char c Q) T C' (set_system k (Some [])) [] eq_refl H) as (i & F & R). exists (firstn i raw), (skipn (S i) raw). split; [apply quoted_some; assumption|exact R].
    + destruct (N.eqb_spec c 62); [contradiction|]. destruct (forced _ _ H).
Qed.
Lemma between raw tail : tail_ok tail -> clean raw -> forall st k, st = Between \/ st = AfterPublicId -> t_system k = None -> t_force (fst (tokenize st k (raw ++ tail))) = false ->
  fst (tokenize st k (raw ++ tail)) = set_system k (option_map fst (quoted (skip_ws raw))).
Proof.
  intros T. induction raw as [|c raw IH]; intros C st k St Sy H.
  - cbn [app skip_ws drop_while quoted option_map] in *. assert (K : set_system k None = k) by (rewrite <- Sy; destruct k; reflexivity). destruct T as [->|(r & ->)]; [destruct St as [-> | ->]; discriminate H|]. destruct St as [-> | ->]; cbn [tokenize]; symmetry; exact K.
  - destruct (clean_cons _ _ C) as [(C1 & C2 & C3) C']. 
    assert (G : t_force (fst (tokenize Between k ((c :: raw) ++ tail))) = false /\ (fst (tokenize Between k ((c :: raw) ++ tail)) = set_system k (option_map fst (quoted (skip_ws (c :: raw)))) -> fst (tokenize st k ((c :: raw) ++ tail)) = set_system k (option_map fst (quoted (skip_ws (c :: raw)))))).
    { destruct St as [-> | ->]; cbn [app tokenize] in *; split; [exact H|auto|exact H|auto]. }
    destruct G as [H' G]. apply G. clear G H St. unfold skip_ws. cbn [app tokenize drop_while] in *. rewrite (ws_html c C2). destruct (ws c).
    + apply IH; [exact C'|left; reflexivity|exact Sy|exact H'].
    + destruct (N.eqb_spec c 62); [contradiction|]. destruct ((c =? 34) || (c =? 39)) eqn:Q; [|destruct (forced _ _ H')].
      destruct (system_id c raw tail (quote_char c Q) T C' (set_system k (Some [])) [] eq_refl H') as (i & F & R). rewrite (quoted_some _ _ _ Q F). cbn [option_map fst]. rewrite R. reflexivity.
Qed.
Lemma public_id q raw tail : (q =? 62) = false -> tail_ok tail -> clean raw -> forall k v, t_public k = Some v -> t_system k = None -> t_force (fst (tokenize (PublicId q) k (raw ++ tail))) = false ->
  exists i, find_char q raw = Some i /\ fst (tokenize (PublicId q) k (raw ++ tail)) = set_system (set_public k (Some (v ++ firstn i raw))) (option_map fst (quoted (skip_ws (skipn (S i) raw)))).
Proof.
  intros Q T. induction raw as [|c raw IH]; intros C k v V Sy H.
  - cbn [app] in *. exfalso. destruct T as [->|(r & ->)]; [discriminate H|]. cbn [tokenize] in H. rewrite N.eqb_sym, Q in H. discriminate H.
  - destruct (clean_cons _ _ C) as [(C1 & C2 & C3) C']. cbn [app tokenize find_char] in *. destruct (c =? q) eqn:E.
    + exists O. split; [reflexivity|]. rewrite (between raw tail T C' AfterPublicId k (or_intror eq_refl) Sy H). cbn [firstn skipn]. rewrite app_nil_r. assert (K : set_public k (Some v) = k) by (rewrite <- V; destruct k; reflexivity). change (Some v) with (@Some str v). rewrite K. reflexivity.
    + destruct (N.eqb_spec c 62); [contradiction|]. rewrite V in *. cbn [add] in *. rewrite (fffd_id c C3) in *. destruct (IH C' (set_public k (Some (v ++ [c]))) (v ++ [c]) eq_refl Sy H) as (i & Hi & R). rewrite Hi. exists (S i). split; [reflexivity|]. rewrite R. cbn [firstn skipn]. rewrite <- app_assoc. reflexivity.
Qed.
Lemma public_keyword raw tail k : tail_ok tail -> clean raw -> t_system k = None -> t_force (fst (tokenize AfterPublicKeyword k (raw ++ tail))) = false ->
  exists i r, quoted (skip_ws raw) = Some (i, r) /\ fst (tokenize AfterPublicKeyword k (raw ++ tail)) = set_system (set_public k (Some i)) (option_map fst (quoted (skip_ws r))).
Proof.
  intros T. induction raw as [|c raw IH]; intros C Sy H.
  - cbn [app] in *. exfalso. destruct T as [->|(r & ->)]; [discriminate H|]. cbn [tokenize] in H. discriminate H.
  - destruct (clean_cons _ _ C) as [(C1 & C2 & C3) C']. unfold skip_ws at 1. cbn [app tokenize drop_while] in *. rewrite (ws_html c C2). destruct (ws c); [exact (IH C' Sy H)|].
    destruct ((c =? 34) || (c =? 39)) eqn:Q.
    + destruct (public_id c raw tail (quote_char c Q) T C' (set_public k (Some [])) [] eq_refl Sy H) as (i & F & R). exists (firstn i raw), (skipn (S i) raw). split; [apply quoted_some; assumption|exact R].
    + destruct (N.eqb_spec c 62); [contradiction|]. destruct (forced _ _ H).
Qed.
Lemma starts_prefix w : forall s, starts w s = true -> exists r, s = w ++ r.
Proof.
  induction w as [|c w IH]; intros s H; [exists s; reflexivity|]. destruct s as [|d s]; [discriminate H|]. cbn [starts] in H. apply andb_true_iff in H as [A B]. apply N.eqb_eq in A as <-. destruct (IH s B) as (r & ->). exists r. reflexivity.
Qed.
(* six letters of raw ++ tail are letters of raw *)
Lemma six w raw tail : tail_ok tail -> (forall c, In c w -> 97 <= c <= 122) -> starts w (alow (raw ++ tail)) = true -> exists a r, raw = a ++ r /\ alow a = w.
Proof.
  intros T. revert raw. induction w as [|x w IH]; intros raw L H; [exists [], raw; split; reflexivity|]. destruct raw as [|c raw].
  - exfalso. cbn [app] in H. destruct T as [->|(r & ->)]; [discriminate H|]. cbn [alow map starts] in H. change (alow_c 62) with 62 in H. specialize (L x (or_introl eq_refl)). lia.
  - cbn [app alow map starts] in H. fold (alow (raw ++ tail)) in H. apply andb_true_iff in H as [A B]. destruct (IH raw (fun y I => L y (or_intror I)) B) as (a & r & -> & E). exists (c :: a), r. split; [reflexivity|]. cbn [alow map]. fold (alow a). rewrite E. f_equal. lia.
Qed.
Lemma alow_length s : List.length (alow s) = List.length s.
Proof. unfold alow. apply map_length. Qed.
Lemma keyword b k x1 x2 x3 x4 x5 r : tokenize (Keyword 5 b) k (x1 :: x2 :: x3 :: x4 :: x5 :: r) = tokenize (if b then AfterPublicKeyword else AfterSystemKeyword) k r.
Proof. reflexivity. Qed.
Lemma list6 (a : str) : List.length a = 6%nat -> exists x0 x1 x2 x3 x4 x5, a = [x0; x1; x2; x3; x4; x5].
Proof. intros L. destruct a as [|x0 [|x1 [|x2 [|x3 [|x4 [|x5 [|? ?]]]]]]]; try discriminate L. repeat eexists. Qed.
Lemma ci_lower a : forall w r, alow a = w -> starts_ci w (a ++ r) = true.
Proof.
  induction a as [|c a IH]; intros w r <-; [destruct r; reflexivity|]. cbn [alow map app starts_ci]. unfold ci at 1. rewrite N.eqb_refl. cbn [orb andb]. apply IH. reflexivity.
Qed.
Lemma lower_of_alow a : forallb (fun c => c <? 128) (alow a) = true -> lower a = alow a.
Proof.
  induction a as [|c a IH]; intros H; [reflexivity|]. cbn [alow map forallb] in *. apply andb_true_iff in H as [A B]. change (lower (c :: a)) with (lower_c c ++ lower a). rewrite lower_c_ascii; [rewrite IH by exact B; reflexivity|]. unfold alow_c, is_upper_ascii in A. destruct ((65 <=? c) && (c <=? 90)); lia.
Qed.
(* what the code does after the name *)
Definition after_name (name : option str) (s : str) : doctype :=
  let k := skip_ws s in
  if starts_ci (u "public") k || starts_ci (u "system") k then
    let '(first, second) := ids (skipn 6 k) in
    let kind := lower (firstn 6 k) in
    if str_eqb kind (u "public") then {| d_name := name; d_public := first; d_system := second; d_force := false |}
    else if str_eqb kind (u "system") then {| d_name := name; d_public := None; d_system := first; d_force := false |}
    else {| d_name := name; d_public := None; d_system := None; d_force := false |}
  else {| d_name := name; d_public := None; d_system := None; d_force := match strip_chars (9 :: 10 :: 12 :: 13 :: u " ") s with [] => false | _ => true end |}.
Definition agree (k : token) (d : doctype) : Prop := d_name d = option_map lower (t_name k) /\ d_public d = t_public k /\ d_system d = t_system k /\ d_force d = false.
Lemma strip_spaces s : forallb is_html_space s = true -> strip_chars (9 :: 10 :: 12 :: 13 :: u " ") s = [].
Proof.
  intros H. unfold strip_chars, strip_by, lstrip_by. assert (E : drop_while (fun c => mem c (9 :: 10 :: 12 :: 13 :: u " ")) s = []); [|rewrite E; reflexivity].
  induction s as [|c s IH]; [reflexivity|]. cbn [forallb drop_while] in *. apply andb_true_iff in H as [A B]. assert (M : mem c (9 :: 10 :: 12 :: 13 :: u " ") = true) by (change (u " ") with [32]; unfold mem, is_html_space in *; cbn [existsb]; lia). rewrite M. exact (IH B).
Qed.
Lemma skip_ws_nil s : skip_ws s = [] -> forallb is_html_space s = true.
Proof. unfold skip_ws. induction s as [|c s IH]; [reflexivity|]. cbn [drop_while forallb]. destruct (is_html_space c); [exact IH|discriminate]. Qed.
Lemma after_name_ok tail : tail_ok tail -> forall raw k, clean raw -> t_public k = None -> t_system k = None -> t_force k = false -> t_force (fst (tokenize AfterName k (raw ++ tail))) = false ->
  forall whole, skip_ws whole = skip_ws raw -> agree (fst (tokenize AfterName k (raw ++ tail))) (after_name (option_map lower (t_name k)) whole).
Proof.
  intros T. induction raw as [|c raw IH]; intros k C P Sy Fo H whole W.
  - unfold after_name. rewrite W. cbn [skip_ws drop_while]. change (starts_ci (u "public") [] || starts_ci (u "system") []) with false. cbv iota. rewrite strip_spaces by (apply skip_ws_nil; exact W).
    cbn [app] in *. destruct T as [->|(r & ->)]; [discriminate H|]. cbn [tokenize] in *. change (ws 62) with false. change (62 =? 62) with true. cbv iota. cbn [fst]. unfold agree. cbn [d_name d_public d_system d_force]. rewrite P, Sy. repeat split.
  - pose proof C as Call. destruct (clean_cons _ _ C) as [(C1 & C2 & C3) C']. unfold skip_ws in W at 2. cbn [drop_while] in W. rewrite (ws_html c C2) in W.
    destruct (ws c) eqn:Wc.
    + cbn [app tokenize] in *. rewrite Wc in *. apply IH; try assumption.
    + unfold after_name. rewrite W.
      assert (G : (exists a r, c :: raw = a ++ r /\ alow a = u "public" /\ tokenize AfterName k ((c :: raw) ++ tail) = tokenize AfterPublicKeyword k (r ++ tail)) \/ (exists a r, c :: raw = a ++ r /\ alow a = u "system" /\ tokenize AfterName k ((c :: raw) ++ tail) = tokenize AfterSystemKeyword k (r ++ tail))).
      { cbn [app tokenize] in H |- *. rewrite Wc in *. destruct (N.eqb_spec c 62); [contradiction|]. change (c :: raw ++ tail) with ((c :: raw) ++ tail) in *.
        destruct (starts (u "public") (alow ((c :: raw) ++ tail))) eqn:E1; [left|destruct (starts (u "system") (alow ((c :: raw) ++ tail))) eqn:E2; [right|destruct (forced _ _ H)]].
        - destruct (six (u "public") (c :: raw) tail T) as (a & r & E & A); [intros x I; vm_compute in I; repeat (destruct I as [<-|I]; [lia|]); destruct I|exact E1|]. exists a, r. split; [exact E|]. split; [exact A|].
          assert (L : List.length a = 6%nat) by (rewrite <- alow_length, A; reflexivity). destruct (list6 a L) as (x0 & x1 & x2 & x3 & x4 & x5 & ->). cbn [app] in E. injection E as -> ->. apply keyword.
        - destruct (six (u "system") (c :: raw) tail T) as (a & r & E & A); [intros x I; vm_compute in I; repeat (destruct I as [<-|I]; [lia|]); destruct I|exact E2|]. exists a, r. split; [exact E|]. split; [exact A|].
          assert (L : List.length a = 6%nat) by (rewrite <- alow_length, A; reflexivity). destruct (list6 a L) as (x0 & x1 & x2 & x3 & x4 & x5 & ->). cbn [app] in E. injection E as -> ->. apply keyword. }
      destruct G as [(a & r & E & A & R)|(a & r & E & A & R)]; rewrite R in *; rewrite E in *;
        assert (L : List.length a = 6%nat) by (rewrite <- alow_length, A; reflexivity);
        assert (Cr : clean r) by (intros x I; apply Call; apply in_or_app; right; exact I);
        rewrite (ci_lower a _ r A); rewrite ?orb_true_r; cbn [orb]; cbv iota;
        rewrite skipn_app, skipn_all2 by lia; rewrite firstn_app, firstn_all2 by lia; replace (6 - List.length a)%nat with O by lia; cbn [skipn firstn app]; rewrite app_nil_r;
        (rewrite lower_of_alow by (rewrite A; reflexivity)); rewrite A; cbv zeta.
      * destruct (public_keyword r tail k T Cr Sy H) as (i & q & Q & Z). rewrite Z. unfold ids. rewrite Q. change (str_eqb (u "public") (u "public")) with true. cbv iota.
        destruct (quoted (skip_ws q)) as [[i2 q2]|]; cbv iota beta; unfold agree; cbn; rewrite ?Fo; repeat split.
      * destruct (system_keyword r tail k T Cr H) as (i & q & Q & Z). rewrite Z. unfold ids. rewrite Q. change (str_eqb (u "system") (u "public")) with false. change (str_eqb (u "system") (u "system")) with true. cbv iota.
        destruct (quoted (skip_ws q)) as [[i2 q2]|]; cbv iota beta; unfold agree; cbn; rewrite ?Fo; rewrite P; repeat split.
Qed.
