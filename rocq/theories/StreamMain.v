(* the main induction: the events of the scanner cover the html *)
From Coq Require Import Lia ZifyBool ZifyN ZifyNat.
From Verif Require Import Str StrFacts EntitiesModel HtmlTokSpec RawTextSpec TokFacts EntExact RefsFacts ScanModel AttrModel StreamModel StreamSpec StreamStack StreamCover.
From Verif Require AttrFinal SelNodeProofs ScanComProofs DoctypeFinal ScanRawProofs ScanFirst PropertiesAttr SanTreeProofs CssFunProofs.
Open Scope list_scope. Open Scope N_scope.
Local Opaque decode_entities_in_text html_integration_point.

Definition good (f : bool) (s : str) (pre : list item) (o : outcome) : Prop :=
  match o with
  | Events evs => exists l, covers f s l /\ items evs = pre ++ l
  | Raises => ~ refs_ok true s
  | _ => False
  end.
Lemma items_app a b : items (a ++ b) = items a ++ items b.
Proof. apply flat_map_app. Qed.
Lemma items_flush b : items (flush b) = map IChar b.
Proof. destruct b; [reflexivity|]. cbn. rewrite app_nil_r. reflexivity. Qed.
Lemma good_step f' f w s pre pre' x evs0 out : (forall l, covers f' s l -> covers f (w ++ s) (x ++ l)) -> good f' s pre' out -> items evs0 ++ pre' = pre ++ x -> good f (w ++ s) pre (emit evs0 out).
Proof.
  intros H G E. destruct out as [evs| | |]; cbn [emit good] in *; try exact G.
  - destruct G as (l & C & K). exists (x ++ l). split; [apply H; exact C|]. rewrite items_app, K, app_assoc, E, app_assoc. reflexivity.
  - intros R. apply G. exact (refs_suffix _ _ _ R).
Qed.
Lemma good_stay f s pre pre' evs0 out : good f s pre' out -> items evs0 ++ pre' = pre -> good f s pre (emit evs0 out).
Proof. intros G E. apply (good_step f f [] s pre pre' [] evs0 out); [intros l C; exact C|exact G|]. rewrite E, app_nil_r. reflexivity. Qed.
Lemma emit_nil o : emit [] o = o.
Proof. destruct o; reflexivity. Qed.
Lemma good_move f w s pre pre' x out : (forall l, covers f s l -> covers f (w ++ s) (x ++ l)) -> good f s pre' out -> pre' = pre ++ x -> good f (w ++ s) pre out.
Proof. intros H G E. rewrite <- (emit_nil out). apply (good_step f f w s pre pre' x [] out H G). exact E. Qed.
Lemma good_text f w v s pre out : ~ In 60 w -> s = [] \/ starts [60] s = true -> append_text false false w = Some v -> good f s (pre ++ map IChar v) out -> good f (w ++ s) pre out.
Proof.
  intros N1 N2 A G. apply append_some in A. destruct w as [|c w].
  - assert (v = []) as -> by (change (newlines []) with (@List.nil N) in A; rewrite decode_plain in A by reflexivity; congruence). rewrite app_nil_r in G. exact G.
  - apply (good_move _ _ _ _ _ (map IChar v) _) with (2 := G); [|reflexivity]. intros l C. apply CText; [discriminate|exact N1|exact N2|exact A|exact C].
Qed.
Lemma scan_nil f b o : scan_html (S f) b o [] = Events (flush b).
Proof. reflexivity. Qed.
Lemma good_nil f b : good f [] (map IChar b) (Events (flush b)).
Proof. exists []. split; [constructor|]. rewrite items_flush, app_nil_r. reflexivity. Qed.
Lemma contains_false p s : ~ contains p s = true -> contains p s = false.
Proof. destruct (contains p s); [intros H; destruct (H eq_refl)|reflexivity]. Qed.

(* ---------- doctypes ---------- *)
Lemma dw_split p s : exists a, s = a ++ drop_while p s /\ (forall c, In c a -> p c = true) /\ match drop_while p s with [] => True | c :: _ => p c = false end.
Proof.
  exists (take_while p s). split; [apply drop_while_app|]. split; [apply forallb_forall, take_while_all|]. destruct (drop_while p s) as [|c t] eqn:E; [exact Logic.I|exact (drop_while_head _ _ _ _ E)].
Qed.
Lemma quoted_shape s v r : quoted s = Some (v, r) -> exists q, s = q :: v ++ q :: r /\ In q [34; 39] /\ ~ In q v.
Proof.
  destruct s as [|q t]; [discriminate|]. cbn [quoted]. destruct ((q =? 34) || (q =? 39)) eqn:Q; [|discriminate]. destruct (find_char q t) as [k|] eqn:E; [|discriminate]. apply find_char_Some in E as (a & b & -> & <- & Na). intros H. rewrite firstn_app, Nat.sub_diag, firstn_all, app_nil_r in H.
  replace (List.length a + 1)%nat with (List.length (a ++ [q])) in H by (rewrite app_length; reflexivity). replace (a ++ q :: b) with ((a ++ [q]) ++ b) in H by (rewrite <- app_assoc; reflexivity). rewrite skipn_app, Nat.sub_diag, skipn_all in H. cbn [skipn app] in H. injection H as <- <-.
  exists q. split; [reflexivity|]. split; [cbn; destruct (N.eqb_spec q 34); [left; congruence|right; left; destruct (N.eqb_spec q 39); [congruence|discriminate Q]]|exact Na].
Qed.
Lemma quoted_none s : quoted (drop_while is_space s) = None -> no_quoted s.
Proof.
  intros H a q v r Ba Iq Nv ->. assert (Sq : is_space q = false) by (destruct Iq as [<-|[<-|[]]]; reflexivity). destruct (dw_run is_space a (q :: v ++ q :: r) Ba Sq) as [D _]. rewrite D in H. cbn [quoted] in H. assert (Q : (q =? 34) || (q =? 39) = true) by (destruct Iq as [<-|[<-|[]]]; reflexivity). rewrite Q in H.
  destruct (find_char q (v ++ q :: r)) eqn:F; [discriminate H|]. apply find_char_None in F. apply F. apply in_or_app. right. left. reflexivity.
Qed.
Lemma ci_upper x c : is_upper_ascii x = true -> ci x c = true -> (c < 128 /\ alow_c c = alow_c x) \/ exists y, In y (lower_c c) /\ 128 <= y.
Proof.
  intros U H. unfold ci in H. apply orb_true_iff in H as [H|H]; [apply orb_true_iff in H as [H|H]; [apply orb_true_iff in H as [H|H]|]|].
  - apply N.eqb_eq in H. subst c. left. split; [unfold is_upper_ascii in U; lia|reflexivity].
  - apply N.eqb_eq in H. subst c. left. split; [unfold is_upper_ascii in U; lia|]. unfold alow_c. rewrite U. assert (is_upper_ascii (x + 32) = false) as -> by (unfold is_upper_ascii in *; lia). reflexivity.
  - apply andb_true_iff in H as [_ H]. apply orb_true_iff in H as [H|H]; apply N.eqb_eq in H; subst c; right; vm_compute; [exists 775|exists 305]; (split; [tauto|discriminate]).
  - apply andb_true_iff in H as [_ H]. apply N.eqb_eq in H. subst c. right. exists 383. split; [vm_compute; tauto|lia].
Qed.
Lemma keyword_shape k : forall s kind r, forallb is_upper_ascii k = true -> keyword k s = Some (kind, r) -> s = kind ++ r /\ List.length kind = List.length k /\ ((forall y, In y (lower kind) -> y < 128) -> alow kind = alow k).
Proof.
  induction k as [|x k IH]; intros s kind r U H; cbn [keyword] in H; [injection H as <- <-; split; [reflexivity|]; split; [reflexivity|]; intros _; reflexivity|]. cbn [forallb] in U. apply andb_true_iff in U as [Ux U]. destruct s as [|c s]; [discriminate H|]. destruct (ci x c) eqn:Ci; [|discriminate H].
  destruct (keyword k s) as [[a' b']|] eqn:E; [|discriminate H]. cbn [option_map fst snd] in H. injection H as <- <-. destruct (IH _ _ _ U E) as (-> & L & A). split; [reflexivity|]. split; [cbn [List.length]; f_equal; exact L|]. intros Hy. assert (Lw : lower (c :: a') = lower_c c ++ lower a') by reflexivity. rewrite Lw in Hy. cbn [alow map].
  destruct (ci_upper x c Ux Ci) as [[_ ->]|(y & Iy & Ly)]; [|specialize (Hy y (in_or_app _ _ _ (or_introl Iy))); lia]. f_equal. apply A. intros y I. apply Hy. apply in_or_app. right. exact I.
Qed.
Lemma keyword_hit k : forall s, forallb is_upper_ascii k = true -> alow (firstn (List.length k) s) = alow k -> keyword k s <> None.
Proof.
  induction k as [|x k IH]; intros s U H; cbn [keyword]; [discriminate|]. cbn [forallb] in U. apply andb_true_iff in U as [Ux U]. destruct s as [|c s]; [discriminate H|]. cbn [List.length firstn alow map] in H. injection H as Hc Ht.
  assert (Ci : ci x c = true). { unfold ci. unfold alow_c in Hc. rewrite Ux in Hc. destruct (is_upper_ascii c) eqn:Uc; [assert (c = x) as -> by lia; rewrite N.eqb_refl; reflexivity|]. assert (c = x + 32) as -> by lia. rewrite N.eqb_refl, orb_true_r. reflexivity. }
  rewrite Ci. specialize (IH s U Ht). destruct (keyword k s) as [[? ?]|]; [discriminate|congruence].
Qed.
Lemma lower_low kind t : lower kind = t -> forallb (fun c => c <? 128) t = true -> forall y, In y (lower kind) -> y < 128.
Proof. intros -> H y I. rewrite forallb_forall in H. specialize (H y I). cbv beta in H. apply N.ltb_lt. exact H. Qed.
Lemma first6 (kind r : str) : List.length kind = 6%nat -> firstn 6 (kind ++ r) = kind.
Proof. intros <-. rewrite firstn_app, Nat.sub_diag, firstn_all, app_nil_r. reflexivity. Qed.
Definition ids (kind first_id second_id : option str) : option str * option str :=
  let is k := match kind with Some x => str_eqb (lower x) (u k) | None => false end in
  (if is "public"%string then option_map no_nul first_id else None, if is "public"%string then option_map no_nul second_id else if is "system"%string then option_map no_nul first_id else None).
Lemma identifiers_ok s :
  let m := match (match keyword (u "PUBLIC") s with Some x => Some x | None => keyword (u "SYSTEM") s end) with
    | None => (None, None, None)
    | Some (kind, s) => match quoted (drop_while is_space s) with
                        | None => (Some kind, None, None)
                        | Some (first, s) => match quoted (drop_while is_space s) with None => (Some kind, Some first, None) | Some (second, _) => (Some kind, Some first, Some second) end
                        end
    end in
  identifiers s (fst (ids (fst (fst m)) (snd (fst m)) (snd m))) (snd (ids (fst (fst m)) (snd (fst m)) (snd m))).
Proof.
  assert (Up : alow (u "PUBLIC") = u "public") by reflexivity. assert (Us : alow (u "SYSTEM") = u "system") by reflexivity. cbv zeta.
  assert (G : forall kind r, s = kind ++ r -> List.length kind = 6%nat -> (lower kind = u "public" -> alow kind = u "public") -> (lower kind = u "system" -> alow kind = u "system") ->
    let m := match quoted (drop_while is_space r) with
                        | None => (Some kind, None, None)
                        | Some (first, s) => match quoted (drop_while is_space s) with None => (Some kind, Some first, None) | Some (second, _) => (Some kind, Some first, Some second) end
                        end in identifiers s (fst (ids (fst (fst m)) (snd (fst m)) (snd m))) (snd (ids (fst (fst m)) (snd (fst m)) (snd m)))).
  { intros kind r -> L Hp Hs. cbv zeta. destruct (dw_split is_space r) as (a & Ea & Sa & _). unfold ids. destruct (str_eqb (lower kind) (u "public")) eqn:Pu; [|destruct (str_eqb (lower kind) (u "system")) eqn:Sy].
    - apply StrFacts.str_eqb_eq in Pu. specialize (Hp Pu). destruct (quoted (drop_while is_space r)) as [[v1 s3]|] eqn:Q1.
      + destruct (quoted_shape _ _ _ Q1) as (q & Eq & Iq & Nq). destruct (dw_split is_space s3) as (b & Eb & Sb & _). destruct (quoted (drop_while is_space s3)) as [[v2 s4]|] eqn:Q2.
        * destruct (quoted_shape _ _ _ Q2) as (q' & Eq' & Iq' & Nq'). cbn [fst snd option_map]. rewrite Pu. change (str_eqb (u "public") (u "public")) with true. cbv iota. rewrite !no_nul_map, Ea, Eq. apply (DPublic kind a q v1 s3 b q' v2 s4); try assumption. rewrite <- Eq'. exact Eb.
        * cbn [fst snd option_map]. rewrite Pu. change (str_eqb (u "public") (u "public")) with true. cbv iota. rewrite !no_nul_map, Ea, Eq. apply (DPublicOnly kind a q v1 s3); try assumption. apply quoted_none. exact Q2.
      + cbn [fst snd option_map]. rewrite Pu. change (str_eqb (u "public") (u "public")) with true. cbv iota. apply DNone; [left; symmetry; exact Hp|apply quoted_none; exact Q1].
    - apply StrFacts.str_eqb_eq in Sy. specialize (Hs Sy). destruct (quoted (drop_while is_space r)) as [[v1 s3]|] eqn:Q1.
      + destruct (quoted_shape _ _ _ Q1) as (q & Eq & Iq & Nq). assert (K : identifiers (kind ++ r) None (Some (map nul v1))) by (rewrite Ea, Eq; apply (DSystem kind a q v1 s3); assumption).
        destruct (quoted (drop_while is_space s3)) as [[v2 s4]|] eqn:Q2; cbn [fst snd option_map]; rewrite Pu, Sy; change (str_eqb (u "system") (u "system")) with true; cbv iota; rewrite no_nul_map; exact K.
      + cbn [fst snd option_map]. rewrite Pu. destruct (str_eqb (lower kind) (u "system")); apply DNone; try (right; left; symmetry; exact Hs); apply quoted_none; exact Q1.
    - assert (K : identifiers (kind ++ r) None None).
      { apply DOther. rewrite first6 by exact L. intros [K|[K|[]]]; [assert (Z : lower kind = u "public") by (rewrite <- DoctypeFinal.lower_alow, <- K; reflexivity); rewrite Z in Pu; discriminate Pu|assert (Z : lower kind = u "system") by (rewrite <- DoctypeFinal.lower_alow, <- K; reflexivity); rewrite Z in Sy; discriminate Sy]. }
      destruct (quoted (drop_while is_space r)) as [[v1 s3]|]; [destruct (quoted (drop_while is_space s3)) as [[v2 s4]|]|]; cbn [fst snd option_map]; rewrite Pu, Sy; exact K. }
  destruct (keyword (u "PUBLIC") s) as [[kind r]|] eqn:Kp; [|destruct (keyword (u "SYSTEM") s) as [[kind r]|] eqn:Ks].
  - destruct (keyword_shape (u "PUBLIC") _ _ _ eq_refl Kp) as (Es & L & A). apply (G kind r Es L).
    + intros H. rewrite (A (lower_low _ _ H eq_refl)). reflexivity.
    + intros H. exfalso. pose proof (A (lower_low _ _ H eq_refl)) as K. rewrite <- DoctypeFinal.lower_alow, K in H. discriminate H.
  - destruct (keyword_shape (u "SYSTEM") _ _ _ eq_refl Ks) as (Es & L & A). apply (G kind r Es L).
    + intros H. exfalso. pose proof (A (lower_low _ _ H eq_refl)) as K. rewrite <- DoctypeFinal.lower_alow, K in H. discriminate H.
    + intros H. rewrite (A (lower_low _ _ H eq_refl)). reflexivity.
  - cbn [fst snd ids]. apply DOther. intros [K|[K|[]]]; [apply (keyword_hit (u "PUBLIC") s eq_refl); [symmetry; exact K|exact Kp]|apply (keyword_hit (u "SYSTEM") s eq_refl); [symmetry; exact K|exact Ks]].
Qed.
Lemma doctype_ok d : ~ In 62 d -> exists x y z, doctype_event d = EDoctype x y z /\ doctype d x y z.
Proof.
  intros Nd. unfold doctype_event, doctype_match. destruct (dw_split is_space d) as (a & Ea & Sa & Ha). set (s := drop_while is_space d) in *. set (p := fun c => negb (is_space c || (c =? 62))).
  destruct (take_while p s) as [|k0 nm] eqn:Et.
  - exists None, None, None. split; [reflexivity|]. split; [|split; reflexivity]. destruct s as [|c s']; [intros c I; apply Sa; rewrite Ea, app_nil_r in I; exact I|]. exfalso. cbn [take_while] in Et. unfold p in Et at 1. rewrite Ha in Et. destruct (N.eqb_spec c 62) as [->|]; [|discriminate Et]. apply Nd. rewrite Ea. apply in_or_app. right. left. reflexivity.
  - cbv zeta. destruct (dw_split is_space (drop_while p s)) as (b & Eb & Sb & Hb). set (r := drop_while is_space (drop_while p s)) in *. pose proof (identifiers_ok r) as Id. cbv zeta in Id.
    assert (Dn : forall y z, identifiers r y z -> doctype d (Some (no_nul (lower (k0 :: nm)))) y z).
    { intros y z I. exists a, (k0 :: nm), b, r. split; [rewrite Ea at 1; f_equal; rewrite <- Et, <- Eb; apply drop_while_app|]. split; [discriminate|]. split; [exact Sa|]. split; [|split; [exact Sb|split; [|split; [exact Hb|split; [apply no_nul_map|exact I]]]]].
      - intros c Ic. rewrite <- Et in Ic. assert (Pc : p c = true) by (apply (proj1 (forallb_forall p _) (take_while_all p s)); exact Ic). unfold p in Pc. destruct (is_space c); [discriminate Pc|reflexivity].
      - rewrite <- Eb. destruct (drop_while p s) as [|c t] eqn:Ed; [exact Logic.I|]. pose proof (drop_while_head _ _ _ _ Ed) as Hc. unfold p in Hc. destruct (is_space c); [reflexivity|]. destruct (N.eqb_spec c 62) as [->|]; [|discriminate Hc]. exfalso. apply Nd. rewrite Ea. apply in_or_app. right. assert (I0 : In 62 (drop_while p s)) by (rewrite Ed; left; reflexivity). exact (drop_while_incl p s 62 I0). }
    match goal with |- context [match keyword ?k ?x with Some _ => _ | None => _ end] => change x with r end.
    destruct (match keyword (u "PUBLIC") r with Some x => Some x | None => keyword (u "SYSTEM") r end) as [[kind s2]|]; [|eexists _, _, _; split; [reflexivity|]; apply Dn; exact Id]. destruct (quoted (drop_while is_space s2)) as [[v1 s3]|]; [|eexists _, _, _; split; [reflexivity|]; apply Dn; exact Id]. destruct (quoted (drop_while is_space s3)) as [[v2 s4]|]; eexists _, _, _; (split; [reflexivity|]); apply Dn; exact Id.
Qed.

(* ---------- markup declarations ---------- *)
Lemma ascii_starts k s : ScanFirst.low_ascii k = true -> ascii_startswith k s = true -> s = firstn (List.length k) s ++ skipn (List.length k) s /\ alow (firstn (List.length k) s) = k.
Proof.
  intros L H. rewrite (ScanFirst.startswith_hits k s L) in H. split; [symmetry; apply firstn_skipn|]. unfold ScanFirst.hits in H. destruct (ScanRawProofs.strip_ci k s) as [r|] eqn:E; [|discriminate H]. exact (proj2 (proj2 (ScanFirst.strip_some _ _ _ E))).
Qed.
Definition shown (x : declaration) : list item := match x with DEvent e => items_of e | DText t => map IChar (newlines t) end.
Lemma until_62 s d r : until 62 s = (d, r) -> exists b, s = d ++ b ++ r /\ ~ In 62 d /\ (b = [62] \/ (r = [] /\ b = [])).
Proof. intros E. apply until_split in E as [N [->|[-> ->]]]; [exists [62]|exists []]; (split; [try rewrite app_nil_r; reflexivity|]; split; [exact N|]); [left; reflexivity|right; split; reflexivity]. Qed.
Lemma bogus_ok f s d r : until 62 s = (d, r) -> exists w, s = w ++ r /\
  (forall a l, a = u "<!" /\ starts (u "--") s = false /\ alow (firstn 7 s) <> u "doctype" \/ a = u "</" /\ (match d with c :: _ => is_alpha_ascii c = false | [] => False end) \/ a = u "<" /\ starts [63] d = true -> covers f r l -> covers f ((a ++ w) ++ r) (IComment (map nul d) :: l)).
Proof.
  intros E. destruct (until_62 _ _ _ E) as (b & -> & N & B). exists (d ++ b). split; [rewrite <- app_assoc; reflexivity|]. intros a l A C. rewrite <- !app_assoc. apply CBogus; assumption.
Qed.
Definition plain (o : opened) : Prop := forall x, In x (elements o) -> n_ns x = Html /\ html_integration x = false.
Lemma plain_context o : plain o -> in_foreign_context o = false.
Proof. intros P. unfold in_foreign_context. destruct (elements o) as [|x r] eqn:E; [reflexivity|]. unfold plain in P. rewrite E in P. rewrite (proj1 (P x (or_introl eq_refl))). reflexivity. Qed.
Lemma not_prefix k s : ScanFirst.low_ascii k = true -> ascii_startswith k s = false -> alow (firstn (List.length k) s) <> k.
Proof.
  intros L H E. rewrite (ScanFirst.startswith_hits k s L) in H. unfold ScanFirst.hits in H. rewrite ScanFirst.strip_of in H; [discriminate H| |exact E]. apply (f_equal (@List.length N)) in E. unfold alow in E. rewrite map_length, firstn_length in E. lia.
Qed.
Lemma declaration_ok f o t x r : (f = false -> plain o) -> markup_declaration o t = (x, r) -> exists w, t = w ++ r /\ forall l, covers f r l -> covers f ((60 :: 33 :: w) ++ r) (shown x ++ l).
Proof.
  intros Fp. unfold markup_declaration. destruct (starts [45; 45] t) eqn:S1.
  { apply starts_spec in S1 as [t1 ->]. cbn [skipn app]. destruct (comment_declaration t1) as [d r1] eqn:E. intros K. injection K as <- <-. destruct (comment_split _ _ _ E) as [(b & -> & -> & Ib)|(y & b & -> & -> & Ib & N1 & N2 & N3 & N4)].
    - exists ([45; 45] ++ b). split; [cbn [app]; reflexivity|]. intros l C. cbn [shown items_of app]. apply (CCommentShort f b r1 l Ib C).
    - exists ([45; 45] ++ y ++ b). split; [cbn [app]; rewrite <- !app_assoc; reflexivity|].
      intros l C. cbn [shown items_of app]. rewrite <- !app_assoc. apply (CComment f y b r1 l); assumption. }
  destruct (ascii_startswith (u "doctype") t) eqn:S2.
  { destruct (ascii_starts (u "doctype") t eq_refl S2) as [E1 E2]. change (List.length (u "doctype")) with 7%nat in *. destruct (until 62 (skipn 7 t)) as [d r1] eqn:E. intros K. injection K as <- <-. destruct (until_62 _ _ _ E) as (b & Eb & N & B). destruct (doctype_ok d N) as (x & y & z & Ee & Hx). exists (firstn 7 t ++ d ++ b). rewrite E1 at 1. rewrite Eb at 1.
    split; [rewrite <- !app_assoc; reflexivity|]. intros l C. rewrite Ee. cbn [shown items_of app]. rewrite <- !app_assoc. apply (CDoctype f (firstn 7 t) d b x y z r1 l); assumption. }
  destruct (ascii_startswith (u "[cdata[") t && in_foreign_context o) eqn:S3.
  { apply andb_true_iff in S3 as [S3 S4]. destruct f; [|rewrite (plain_context o (Fp eq_refl)) in S4; discriminate S4]. destruct (ascii_starts (u "[cdata[") t eq_refl S3) as [E1 E2]. change (List.length (u "[cdata[")) with 7%nat in *. destruct (find (u "]]>") (skipn 7 t)) as [k|] eqn:F.
    - intros K. injection K as <- <-. destruct (find_at _ _ _ F) as [Eb _]. change (List.length (u "]]>")) with 3%nat in Eb. exists (firstn 7 t ++ firstn k (skipn 7 t) ++ u "]]>"). rewrite E1 at 1. rewrite Eb at 1. split; [rewrite <- !app_assoc; reflexivity|]. intros l C. cbn [shown app]. rewrite <- !app_assoc.
      apply (CCdata (firstn 7 t) _ (u "]]>") _ l); [exact E2|apply contains_false, find_none_prefix; [exact F|discriminate]|left; reflexivity|exact C].
    - intros K. injection K as <- <-. exists (firstn 7 t ++ skipn 7 t). split; [rewrite app_nil_r; exact E1|]. intros l C. cbn [shown app]. rewrite <- app_assoc. apply (CCdata (firstn 7 t) (skipn 7 t) [] [] l); [exact E2|unfold contains; rewrite F; reflexivity|right; split; reflexivity|exact C]. }
  destruct (until 62 t) as [d r1] eqn:E. intros K. injection K as <- <-. destruct (bogus_ok f _ _ _ E) as (w & Ew & H). exists w. split; [exact Ew|]. intros l C. rewrite no_nul_map. refine (H (u "<!") l (or_introl (conj eq_refl (conj S1 _))) C). exact (not_prefix (u "doctype") t eq_refl S2).
Qed.

(* ---------- tags ---------- *)
Lemma in_stops (l : list N) c : mem c l = true -> In c l.
Proof. apply StrFacts.mem_In. Qed.
Lemma name_split stops ch t w r : ~ In ch stops -> In 62 stops -> drop_while (fun c => negb (mem c stops)) (ch :: t) = w ++ 62 :: r ->
  exists n, take_while (fun c => negb (mem c stops)) (ch :: t) = ch :: n /\ name_ends stops (ch :: n) (w ++ [62]) /\ ch :: t = (ch :: n) ++ w ++ 62 :: r.
Proof.
  intros Hc H62 E. pose proof (take_while_all (fun c => negb (mem c stops)) (ch :: t)) as A. pose proof (drop_while_app (fun c => negb (mem c stops)) (ch :: t)) as D. rewrite E in D. assert (Hm : mem ch stops = false) by (destruct (mem ch stops) eqn:M; [destruct Hc; apply in_stops; exact M|reflexivity]). cbn [take_while] in *. rewrite Hm in *. cbn [negb] in *. eexists. split; [reflexivity|]. split; [split|exact D].
  - intros c I J. rewrite forallb_forall in A. specialize (A c I). cbv beta in A. apply StrFacts.mem_In in J. rewrite J in A. discriminate A.
  - destruct w as [|y w]; cbn [app] in *; [exact H62|]. apply in_stops. pose proof (drop_while_head _ _ _ _ E) as K. cbv beta in K. destruct (mem y stops); [reflexivity|discriminate K].
Qed.
Lemma stop_order c : mem c TAG_END_NAME_STOP = mem c end_stops.
Proof. apply eq_true_iff_eq. rewrite !StrFacts.mem_In. cbn [In TAG_END_NAME_STOP SPACE app end_stops]. tauto. Qed.
Lemma tw_ext (p q : N -> bool) s : (forall c, p c = q c) -> take_while p s = take_while q s /\ drop_while p s = drop_while q s.
Proof. intros H. induction s as [|c s [A B]]; [split; reflexivity|]. cbn [take_while drop_while]. rewrite H, A, B. split; reflexivity. Qed.
Lemma alpha_stops c stops : is_alpha_ascii c = true -> (forall x, In x stops -> is_alpha_ascii x = false) -> ~ In c stops.
Proof. intros H K I. rewrite (K c I) in H. discriminate H. Qed.
Lemma start_alpha x : In x start_stops -> is_alpha_ascii x = false.
Proof. intros I. repeat (destruct I as [<-|I]; [reflexivity|]). destruct I. Qed.
Lemma end_alpha x : In x end_stops -> is_alpha_ascii x = false.
Proof. intros I. repeat (destruct I as [<-|I]; [reflexivity|]). destruct I. Qed.
(* the split into name and rest is unique *)
Lemma name_unique stops n w r s : s = n ++ w ++ 62 :: r -> name_ends stops n (w ++ [62]) -> drop_while (fun c => negb (mem c stops)) s = w ++ 62 :: r.
Proof.
  intros -> [H1 H2]. apply dw_run.
  - intros c I. destruct (mem c stops) eqn:M; [|reflexivity]. destruct (H1 c I). apply in_stops. exact M.
  - assert (K : forall x y, w ++ 62 :: r = x :: y -> In x stops) by (intros x y E; destruct w; cbn [app] in *; injection E as <- _; exact H2). destruct (w ++ 62 :: r) as [|x y]; [exact Logic.I|]. specialize (K x y eq_refl). apply StrFacts.mem_In in K. rewrite K. reflexivity.
Qed.
Lemma ends_last (s a b : str) : s = a ++ b -> b <> [] -> ends [62] s = true -> exists w, b = w ++ [62].
Proof.
  intros -> Nb E. apply SelNodeProofs.ends_spec in E as [l E]. destruct (exists_last Nb) as (w & x & ->). rewrite app_assoc in E. apply app_inj_tail in E as [_ ->]. exists w. reflexivity.
Qed.
Lemma items_raw_end n : items [EEnd n] = [IEnd n].
Proof. reflexivity. Qed.
Lemma lower_of_name name m : In name (rawtext_tags ++ rcdata_tags) -> alow m = name -> lower m = name /\ exists c n, m = c :: n /\ is_alpha_ascii c = true /\ (forall c, In c m -> ~ In c end_stops).
Proof.
  intros I E. split; [rewrite <- DoctypeFinal.lower_alow, E; repeat (destruct I as [<-|I]; [reflexivity|]); destruct I|].
  assert (A : forall c, In c m -> is_lower_ascii (alow_c c) = true). { intros c Ic. assert (K : In (alow_c c) name) by (rewrite <- E; apply in_map; exact Ic). assert (F : forallb is_lower_ascii name = true) by (clear -I; repeat (destruct I as [<-|I]; [reflexivity|]); destruct I). rewrite forallb_forall in F. apply F. exact K. }
  destruct m as [|c n]; [exfalso; cbn in E; subst name; clear -I; repeat (destruct I as [I|I]; [discriminate I|]); destruct I|]. exists c, n. split; [reflexivity|]. split; [apply CssFunProofs.alow_c_letter, A; left; reflexivity|]. intros d Id. specialize (A d Id). apply CssFunProofs.alow_c_letter in A. exact (alpha_stops d _ A end_alpha).
Qed.

(* every raw value is a piece of the source *)
Lemma pairs_pieces fuel : forall acc s k v, In (k, v) (pairs (scan_pairs fuel acc s)) -> In (k, v) acc \/ PropertiesAttr.piece s v.
Proof.
  induction fuel as [|fuel IH]; intros acc s k v; [intros I; left; exact I|]. cbn [scan_pairs]. destruct (AttrFinal.dw_suffix space s) as [a0 E0]. destruct (drop_while space s) as [|ch t] eqn:D; [intros I; left; exact I|].
  assert (G : forall acc' x b, ch :: t = b ++ x -> In (k, v) (pairs (scan_pairs fuel acc' x)) -> In (k, v) acc' \/ PropertiesAttr.piece s v).
  { intros acc' x b E I. destruct (IH acc' x k v I) as [K|K]; [left; exact K|right]. rewrite E0, E. apply PropertiesAttr.piece_suffix, PropertiesAttr.piece_suffix. exact K. }
  destruct (ch =? 62); [intros I; left; exact I|]. destruct ((ch =? 47) && starts [62] t); [intros I; left; exact I|].
  pose proof (drop_while_app (fun c => negb (attr_name_stop c)) (ch :: t)) as E1. set (nm := take_while (fun c => negb (attr_name_stop c)) (ch :: t)) in *. set (y := drop_while (fun c => negb (attr_name_stop c)) (ch :: t)) in *.
  destruct nm as [|k0 nm0]; [apply (G acc t [ch]); reflexivity|].
  assert (Ext : forall x, PropertiesAttr.piece s x -> In (k, v) (acc ++ [(k0 :: nm0, x)]) -> In (k, v) acc \/ PropertiesAttr.piece s v).
  { intros x P I. apply in_app_or in I as [I|[I|[]]]; [left; exact I|right]. injection I as <- <-. exact P. }
  destruct (AttrFinal.dw_suffix space y) as [a2 E2]. destruct (drop_while space y) as [|e s2].
  - intros I. destruct (G _ [] (ch :: t) ltac:(rewrite app_nil_r; reflexivity) I) as [K|K]; [|right; exact K]. exact (Ext [] (PropertiesAttr.piece_nil s) K).
  - assert (E3 : ch :: t = ((k0 :: nm0) ++ a2) ++ e :: s2) by (rewrite <- app_assoc, <- E2; exact E1).
    destruct (e =? 61).
    + destruct (read_value s2) as [[x s3]|] eqn:Rv; [|intros I; left; exact I]. destruct (AttrFinal.read_suffix _ _ _ Rv) as [a3 E4]. intros I. destruct (G _ s3 (((k0 :: nm0) ++ a2) ++ e :: a3) ltac:(rewrite E3, E4, <- !app_assoc; reflexivity) I) as [K|K]; [|right; exact K]. apply (Ext x); [|exact K].
      rewrite E0, E3. apply PropertiesAttr.piece_suffix, PropertiesAttr.piece_suffix. apply (PropertiesAttr.piece_suffix [e]). exact (PropertiesAttr.value_infix _ _ _ Rv).
    + intros I. destruct (G _ (e :: s2) ((k0 :: nm0) ++ a2) E3 I) as [K|K]; [|right; exact K]. exact (Ext [] (PropertiesAttr.piece_nil s) K).
Qed.
Lemma store_fails ps : forall a, store a ps = None -> exists k v, In (k, v) ps /\ ~ refs_ok true v.
Proof.
  induction ps as [|[k v] ps IH]; intros a H; cbn [store] in H; [discriminate H|]. destruct (decoded_value v) as [x|] eqn:E; [destruct (IH _ H) as (k' & v' & I & R); exists k', v'; split; [right; exact I|exact R]|]. exists k, v. split; [left; reflexivity|]. intros R. unfold decoded_value in E. destruct (mem 38 v); [|discriminate E]. rewrite (c27_exact true v R) in E. discriminate E.
Qed.

Lemma leave_sub x l : In x (leave_foreign l) -> In x l.
Proof. induction l as [|y l IH]; [intros []|]. cbn [leave_foreign]. destruct (foreign (n_ns y)); [intros I; right; exact (IH I)|trivial]. Qed.
Lemma down_sub k x : forall l r, down_to k l = Some r -> In x r -> In x l.
Proof. intros l. induction l as [|y l IH]; intros r H I; cbn [down_to] in H; [discriminate H|]. repeat match type of H with context [if ?b then _ else _] => destruct b end; try discriminate H; try (assert (l = r) as -> by congruence; right; exact I); try (right; eapply IH; eassumption). Qed.
Lemma close_sub name x l : In x (close name l) -> In x l.
Proof.
  unfold close. destruct l as [|y l]; [trivial|]. destruct (_ && _); [apply leave_sub|]. destruct (down_to _ _) as [r|] eqn:E; [intros I; exact (down_sub _ _ _ _ E I)|intros I; right; exact I].
Qed.
Lemma plain_namespace name attrs o : plain o -> namespace_for name attrs o = Some (from_html_context name, o).
Proof.
  intros P. unfold namespace_for. destruct (elements o) as [|x r] eqn:E; [reflexivity|]. unfold plain in P. rewrite E in P. destruct (P x (or_introl eq_refl)) as [Nx Ix]. rewrite Ix, Nx. cbn [mathml_text_integration_point andb foreign]. reflexivity.
Qed.
Lemma from_foreign name : foreign (from_html_context name) = in_strs name foreign_elements.
Proof. unfold from_html_context, in_strs, foreign_elements. cbn [map existsb]. destruct (str_eqb name (u "svg")); [reflexivity|]. destruct (str_eqb name (u "math")); reflexivity. Qed.
Lemma ends_suffix x y : y <> [] -> ends [62] (x ++ y) = ends [62] y.
Proof.
  intros Ny. apply eq_true_iff_eq. rewrite !SelNodeProofs.ends_spec. split; intros [l E].
  - destruct (exists_last Ny) as (w & z & ->). rewrite app_assoc in E. apply app_inj_tail in E as [_ ->]. exists w. reflexivity.
  - exists (x ++ l). rewrite E, <- app_assoc. reflexivity.
Qed.
Lemma end_tag_ok c n after : is_alpha_ascii c = true -> (forall x, In x (c :: n) -> ~ In x end_stops) -> match after with x :: _ => In x end_stops | [] => True end ->
  let r := match find_tag_end None after with None => [] | Some e => skipn (e + 1) after end in
  if nil r && negb (ends [62] (c :: n ++ after)) then forall f, covers f (60 :: 47 :: (c :: n) ++ after) []
  else exists w, after = w ++ 62 :: r /\ forall f l, covers f r l -> covers f (60 :: 47 :: (c :: n) ++ after) (IEnd (lower (c :: n)) :: l).
Proof.
  intros Ac Hn Ha r. assert (Ne : forall w y, after = w ++ 62 :: y -> name_ends end_stops (c :: n) (w ++ [62])). { intros w y E. split; [exact Hn|]. destruct w as [|z w]; cbn [app] in *; [cbn; tauto|]. rewrite E in Ha. exact Ha. }
  assert (Ce : forall f w y l, after = w ++ 62 :: y -> tail w \/ y = [] /\ never_ends (w ++ [62]) -> covers f y l -> covers f (60 :: 47 :: (c :: n) ++ after) (IEnd (lower (c :: n)) :: l)).
  { intros f w y l E H C. rewrite E. apply (CEnd f c n w y l Ac (Ne _ _ E) H C). }
  destruct (find_tag_end None after) as [e|] eqn:Et.
  - pose proof (tagend_at _ _ _ Et) as E. fold r in E. assert (T : tail (firstn e after)) by (apply (tail_found (List.length after)); [lia|exact Et]).
    assert (U : nil r && negb (ends [62] (c :: n ++ after)) = false).
    { destruct (nil r) eqn:Nr; [|reflexivity]. destruct r; [|discriminate Nr]. assert (En : ends [62] (c :: n ++ after) = true) by (apply SelNodeProofs.ends_spec; exists (c :: n ++ firstn e after); cbn [app]; rewrite <- app_assoc, <- E; reflexivity). rewrite En. reflexivity. }
    rewrite U. exists (firstn e after). split; [exact E|]. intros f l C. apply (Ce f _ _ l E (or_introl T) C).
  - apply tail_none in Et. cbn [nil andb] in *. subst r. cbn [nil andb]. destruct (ends [62] (c :: n ++ after)) eqn:En; cbn [negb].
    + assert (Na : after <> []). { intros ->. apply SelNodeProofs.ends_spec in En as [l En]. rewrite app_nil_r in En. apply (Hn 62); [rewrite En; apply in_or_app; right; left; reflexivity|cbn; tauto]. }
      change (c :: n ++ after) with ((c :: n) ++ after) in En. rewrite (ends_suffix (c :: n) after Na) in En. apply SelNodeProofs.ends_spec in En as [w Ew]. exists w. split; [exact Ew|]. intros f l C. apply (Ce f w [] l Ew); [right; split; [reflexivity|rewrite <- Ew; exact Et]|exact C].
    + intros f. apply (CUnfinishedEnd f c (n ++ after)); [exact Ac|exact En|]. intros n' w y E Hn' T. assert (D : drop_while (fun c => negb (mem c end_stops)) (c :: n ++ after) = w ++ 62 :: y) by exact (name_unique _ _ _ _ _ E Hn').
      change (c :: n ++ after) with ((c :: n) ++ after) in D. destruct (dw_run (fun c => negb (mem c end_stops)) (c :: n) after) as [D' _].
      * intros x I. destruct (mem x end_stops) eqn:M; [destruct (Hn x I); apply in_stops; exact M|reflexivity].
      * destruct after as [|x z]; [exact Logic.I|]. apply StrFacts.mem_In in Ha. rewrite Ha. reflexivity.
      * rewrite D' in D. exact (Et w y D T).
Qed.
Lemma firstn_split {A} p (t : list A) x : t = firstn p t ++ x -> x <> [] -> List.length (firstn p t) = p.
Proof.
  intros E N. rewrite firstn_length. assert (L : List.length t = (List.length (firstn p t) + List.length x)%nat) by (rewrite E at 1; apply app_length). rewrite firstn_length in L. destruct x; [congruence|]. cbn [List.length] in L. lia.
Qed.

Theorem cover fuel : forall f buffer o s, (List.length s < fuel)%nat -> consistent o -> (f = false -> plain o) -> good f s (map IChar buffer) (scan_html fuel buffer o s).
Proof.
  induction fuel as [|fuel IH]; intros f buffer o s L Co Pl0; [lia|]. destruct s as [|s0 st]; [apply good_nil|]. cbn [scan_html]. set (s := s0 :: st) in *.
  destruct (find_char 60 s) as [lt|] eqn:Ef.
  2:{ apply find_char_None in Ef. destruct (append_text false false s) as [d|] eqn:Ea.
      - rewrite <- (app_nil_r s). apply (good_text f s d [] _ _ Ef (or_introl eq_refl) Ea). rewrite <- map_app. apply good_nil.
      - cbn [good]. intros R. apply (append_none _ _ _ Ea). apply refs_weaken. exact R. }
  apply find_char_Some in Ef as (a & b & Es & <- & Na). assert (Ea : firstn (List.length a) s = a) by (rewrite Es, firstn_app, Nat.sub_diag, firstn_all, app_nil_r; reflexivity).
  assert (Eb : skipn (List.length a + 1) s = b).
  { rewrite Es. replace (List.length a + 1)%nat with (List.length (a ++ [60])) by (rewrite app_length; reflexivity). replace (a ++ 60 :: b) with ((a ++ [60]) ++ b) by (rewrite <- app_assoc; reflexivity). rewrite skipn_app, Nat.sub_diag, skipn_all. reflexivity. }
  rewrite Ea, Eb. clear Ea Eb. destruct (append_text false false a) as [d|] eqn:Ea.
  2:{ cbn [good]. rewrite Es. intros R. apply (append_none _ _ _ Ea). apply refs_weaken. exact (refs_mid _ [] a _ R). }
  cbv zeta. assert (Lb : (List.length b < fuel)%nat) by (rewrite Es, app_length in L; cbn [List.length] in L; lia). assert (Ends : forall x y, b = x ++ y -> y <> [] -> ends [62] s = ends [62] y).
  { intros x y Eb Ny. rewrite Es, Eb. change (a ++ 60 :: x ++ y) with (a ++ (60 :: x) ++ y). rewrite app_assoc. apply ends_suffix. exact Ny. }
  rewrite Es at 1. apply (good_text f a d (60 :: b) _ _ Na (or_intror eq_refl) Ea). rewrite <- map_app. generalize (buffer ++ d). clear buffer d Ea. intros buffer.
  destruct b as [|ch t].
  { exists [IChar 60]. split; [apply (CLess f [] []); [exact Logic.I|constructor]|]. rewrite items_flush, map_app. reflexivity. }
  cbn [List.length] in Lb. destruct (N.eqb_spec ch 33) as [->|N33].
  { destruct (markup_declaration o t) as [x r] eqn:Em. destruct (declaration_ok f _ _ _ _ Pl0 Em) as (w & -> & C). rewrite app_length in Lb. destruct x as [e|x].
    - change (60 :: 33 :: w ++ r) with ((60 :: 33 :: w) ++ r). apply (good_step f f _ _ _ [] _ _ _ C); [apply (IH f [] o r); [lia|exact Co|exact Pl0]|]. rewrite items_app, items_flush, app_nil_r. cbn [items flat_map shown]. rewrite app_nil_r. reflexivity.
    - rewrite append_raw. change (60 :: 33 :: w ++ r) with ((60 :: 33 :: w) ++ r). apply (good_step f f _ _ _ [] _ _ _ C); [apply (IH f [] o r); [lia|exact Co|exact Pl0]|]. rewrite items_app, !items_flush, app_nil_r. reflexivity. }
  destruct (N.eqb_spec ch 47) as [->|N47].
  { destruct t as [|c t'].
    { destruct fuel; [lia|]. rewrite scan_nil. exists [IChar 60; IChar 47]. split; [apply CLessSlash|]. rewrite items_flush, map_app. reflexivity. }
    cbn [List.length] in Lb. destruct (is_alpha_ascii c) eqn:Ac; cbn [negb].
    - destruct (tw_ext (fun c => negb (end_name_stop c)) (fun c => negb (mem c end_stops)) (c :: t') (fun c => f_equal negb (stop_order c))) as [Tw Dw]. rewrite Tw, Dw. clear Tw Dw.
      pose proof (alpha_stops c _ Ac end_alpha) as Nc. pose proof (drop_while_app (fun c => negb (mem c end_stops)) (c :: t')) as E. pose proof (take_while_all (fun c => negb (mem c end_stops)) (c :: t')) as Ta. set (p := fun c => negb (mem c end_stops)) in *.
      assert (Hd : match drop_while p (c :: t') with x :: _ => In x end_stops | [] => True end). { destruct (drop_while p (c :: t')) as [|x y] eqn:D; [exact Logic.I|]. apply in_stops. pose proof (drop_while_head _ _ _ _ D) as K. unfold p in K. apply negb_false_iff in K. exact K. }
      assert (Tk : exists n, take_while p (c :: t') = c :: n). { assert (Pc : p c = true) by (unfold p; destruct (mem c end_stops) eqn:M; [destruct Nc; apply in_stops; exact M|reflexivity]). cbn [take_while]. rewrite Pc. eexists. reflexivity. }
      destruct Tk as [n Tk]. rewrite Tk in *. set (after := drop_while p (c :: t')) in *. clearbody after. assert (Hn : forall x, In x (c :: n) -> ~ In x end_stops). { intros x I J. rewrite forallb_forall in Ta. specialize (Ta x I). unfold p in Ta. apply StrFacts.mem_In in J. rewrite J in Ta. discriminate Ta. }
      pose proof (end_tag_ok c n after Ac Hn Hd) as K. cbv zeta in K. rewrite (Ends [47] (c :: t') eq_refl ltac:(discriminate)). assert (E62 : ends [62] (c :: t') = ends [62] (c :: n ++ after)) by (rewrite E; reflexivity). rewrite E62.
      set (r := match find_tag_end None after with None => [] | Some e => skipn (e + 1) after end) in *. destruct (nil r && negb (ends [62] (c :: n ++ after))).
      + destruct fuel; [lia|]. rewrite scan_nil. exists []. split; [rewrite E; apply K|]. rewrite items_flush, app_nil_r. reflexivity.
      + destruct K as (w & Ew & K). destruct (close_ok (lower (c :: n)) o Co) as (o' & -> & Eo' & Co'). assert (Lr : (List.length r < fuel)%nat) by (assert (Q : List.length (c :: t') = List.length ((c :: n) ++ w ++ 62 :: r)) by (rewrite E, Ew; reflexivity); rewrite !app_length in Q; cbn [List.length] in Q; lia).
        rewrite E. assert (Sh : 60 :: 47 :: (c :: n) ++ after = (60 :: 47 :: (c :: n) ++ w ++ [62]) ++ r) by (rewrite Ew; cbn [app]; rewrite <- !app_assoc; reflexivity). rewrite Sh.
        apply (good_step f f _ r _ [] [IEnd (lower (c :: n))]); [|apply (IH f [] o' r Lr Co')|rewrite items_app, items_flush, app_nil_r; reflexivity].
        * intros l C. rewrite <- Sh. apply (K f l C).
        * intros Ff x I. apply (Pl0 Ff). rewrite Eo' in I. exact (close_sub _ _ _ I).
    - destruct (N.eqb_spec c 62) as [->|N62].
      + apply (good_move f [60; 47; 62] t' _ (map IChar buffer) []); [intros l C; apply CNothing; exact C|apply (IH f buffer o t'); [lia|exact Co|exact Pl0]|symmetry; apply app_nil_r].
      + destruct (until 62 (c :: t')) as [d r] eqn:Eu. destruct (bogus_ok f _ _ _ Eu) as (w & Ew & H). rewrite Ew. change (60 :: 47 :: w ++ r) with ((u "</" ++ w) ++ r). apply (good_step f f _ r _ [] [IComment (map nul d)]).
        * intros l C. apply H; [right; left; split; [reflexivity|]|exact C]. destruct (until_62 _ _ _ Eu) as (b & Eb & _ & Hb). destruct d as [|y d]; [|cbn [app] in Eb; assert (y = c) as -> by congruence; exact Ac]. cbn [app] in Eb. destruct Hb as [->|[-> ->]]; cbn [app] in Eb; [congruence|discriminate Eb].
        * apply (IH f [] o r); [|exact Co|exact Pl0]. assert (K : List.length (c :: t') = List.length (w ++ r)) by (rewrite Ew; reflexivity). rewrite app_length in K. cbn [List.length] in K. lia.
        * rewrite items_app, items_flush, app_nil_r, no_nul_map. reflexivity. }
  destruct (N.eqb_spec ch 63) as [->|N63].
  { destruct (until 62 t) as [d r] eqn:Eu. assert (Eu' : until 62 (63 :: t) = (63 :: d, r)). { unfold until in *. cbn [find_char N.eqb]. change (63 =? 62) with false. cbv iota. destruct (find_char 62 t); cbn [option_map]; injection Eu as <- <-; reflexivity. }
    destruct (bogus_ok f _ _ _ Eu') as (w & Ew & H). rewrite Ew. change (60 :: w ++ r) with ((u "<" ++ w) ++ r). apply (good_step f f _ r _ [] [IComment (map nul (63 :: d))]).
    - intros l C. apply H; [right; right; split; reflexivity|exact C].
    - apply (IH f [] o r); [|exact Co|exact Pl0]. assert (K : List.length (63 :: t) = List.length (w ++ r)) by (rewrite Ew; reflexivity). rewrite app_length in K. cbn [List.length] in K. pose proof (until_62 _ _ _ Eu) as (b & Eb & _). rewrite Eb, !app_length in Lb. lia.
    - rewrite items_app, items_flush, app_nil_r, no_nul_map. reflexivity. }
  destruct (is_alpha_ascii ch) eqn:Ac; cbn [negb].
  2:{ apply (good_step f f [60] (ch :: t) _ [IChar 60] [IChar 60]); [|apply (IH f [60] o (ch :: t)); [exact Lb|exact Co|exact Pl0]|rewrite items_flush; reflexivity]. intros l C. apply CLess; [|exact C]. split; [exact Ac|]. intros [<-|[<-|[<-|[]]]]; congruence. }
  pose proof (alpha_stops ch _ Ac start_alpha) as Nch. change (fun c => negb (tag_name_stop c)) with (fun c => negb (mem c start_stops)).
  set (p := fun c => negb (mem c start_stops)) in *. set (after := drop_while p (ch :: t)) in *. set (tg := scan_pairs (S (List.length after)) [] after) in *.
  destruct (store [] (pairs tg)) as [attrs|] eqn:Est.
  2:{ cbn [good]. intros R. destruct (store_fails _ _ Est) as (k & v & I & Rv). apply Rv. destruct (pairs_pieces _ _ _ _ _ I) as [[]|(x & y & Ex)]. pose proof (drop_while_app p (ch :: t)) as D. fold after in D. rewrite Ex in D. apply (refs_mid true (60 :: take_while p (ch :: t) ++ x) v y). cbn [app]. rewrite <- app_assoc, <- D. exact R. }
  destruct (tag_closed tg) eqn:Cl; cbn [negb].
  2:{ exists []. split; [apply (CUnfinished f ch t); [exact Ac|]|rewrite items_flush, app_nil_r; reflexivity]. intros n w r raws E Hn A. pose proof (name_unique _ _ _ _ _ E Hn) as D. fold p in D. fold after in D. assert (Lw : (List.length w < S (List.length after))%nat) by (rewrite D, app_length; lia).
      destruct (scan_attributes w raws A (S (List.length after)) [] r Lw) as [sc Esc]. rewrite <- D in Esc. fold tg in Esc. rewrite Esc in Cl. discriminate Cl. }
  destruct (pairs_closed _ _ _ Cl) as (w & raws & Ew & Er0 & Aw). change (scan_pairs _ [] after) with tg in Ew, Er0. cbn [app] in Er0. rewrite Er0 in Est. set (r := rest tg) in *. destruct (name_split start_stops ch t w r Nch ltac:(cbn; tauto) Ew) as (n & Et & Nn & E). fold p in Et. rewrite Et.
  pose proof (store_tag _ _ _ Aw Est) as Nd. clear Aw Est. set (name := lower (ch :: n)) in *. destruct (namespace_ok name attrs o Co) as (ns & o' & Ens & Co' & _). rewrite Ens. cbv zeta.
  assert (Pns : f = false -> ns = from_html_context name /\ o' = o). { intros Ff. rewrite (plain_namespace name attrs o (Pl0 Ff)) in Ens. split; congruence. }
  set (f' := f || in_strs name foreign_elements).
  assert (Co2 : consistent (if self_closing tg && foreign ns then o' else push (new_node (adjusted_name name ns) ns attrs) o')) by (destruct (self_closing tg && foreign ns); [exact Co'|apply push_consistent; exact Co']).
  assert (Pl2 : f' = false -> plain (if self_closing tg && foreign ns then o' else push (new_node (adjusted_name name ns) ns attrs) o')).
  { intros Hf. unfold f' in Hf. apply orb_false_iff in Hf as [Hf Hs]. destruct (Pns Hf) as [-> ->]. rewrite from_foreign, Hs, andb_false_r. assert (Hh : from_html_context name = Html) by (pose proof (from_foreign name) as Q; rewrite Hs in Q; destruct (from_html_context name); [reflexivity|discriminate Q|discriminate Q]). rewrite Hh.
    intros x [<-|I]; [split; reflexivity|exact (Pl0 Hf x I)]. }
  revert Co2 Pl2. generalize (if self_closing tg && foreign ns then o' else push (new_node (adjusted_name name ns) ns attrs) o'). intros o2 Co2 Pl2.
  rewrite E. assert (Lr : (List.length r < fuel)%nat) by (assert (K : List.length (ch :: t) = List.length ((ch :: n) ++ w ++ 62 :: r)) by (rewrite E; reflexivity); rewrite !app_length in K; cbn [List.length] in K; lia).
  assert (Pre : items (flush buffer ++ [EStart name attrs]) = map IChar buffer ++ [IStart name attrs]) by (rewrite items_app, items_flush; reflexivity).
  assert (Sh : 60 :: (ch :: n) ++ w ++ 62 :: r = (60 :: (ch :: n) ++ w ++ [62]) ++ r) by (cbn [app]; rewrite <- !app_assoc; reflexivity).
  destruct (negb (foreign ns) && str_eqb name (u "plaintext")) eqn:Pl.
  { apply andb_true_iff in Pl as [_ Pl]. apply StrFacts.str_eqb_eq in Pl. rewrite append_raw. destruct fuel; [lia|]. rewrite scan_nil. exists (IStart name attrs :: map IChar (map nul (newlines r))). split; [apply (CPlaintext f ch n w attrs r); assumption|]. rewrite items_app, Pre, items_flush, <- app_assoc. reflexivity. }
  destruct (negb (foreign ns) && (in_strs name rawtext_tags || in_strs name rcdata_tags)) eqn:Rw.
  2:{ rewrite Sh. apply (good_step f' f _ r _ [] [IStart name attrs]); [|apply (IH f' [] o2 r Lr Co2 Pl2)|rewrite Pre, app_nil_r; reflexivity]. intros l C. rewrite <- Sh. apply (CStart f ch n w attrs r l); try assumption. intros Ff I. fold name in I. destruct (Pns Ff) as [Hns _]. rewrite Hns, from_foreign in Pl, Rw.
      assert (Fo : in_strs name foreign_elements = false). { destruct (in_strs name foreign_elements) eqn:Q; [|reflexivity]. exfalso. apply SanTreeProofs.in_strs_In in Q. destruct Q as [Q|[Q|[]]]; rewrite <- Q in I; clear -I; repeat (destruct I as [I|I]; [discriminate I|]); destruct I. }
      rewrite Fo in Pl, Rw. cbn [negb andb] in Pl, Rw. destruct I as [I|I]; [rewrite <- I in Pl; discriminate Pl|]. apply in_app_or in I as [I|I]; apply SanTreeProofs.in_strs_In in I; [change raw_text_elements with rawtext_tags in I|change rcdata_elements with rcdata_tags in I]; rewrite I in Rw; [discriminate Rw|rewrite orb_true_r in Rw; discriminate Rw]. }
  apply andb_true_iff in Rw as [_ Rw].
  assert (In_name : In name (rawtext_tags ++ rcdata_tags)) by (apply in_or_app; apply orb_true_iff in Rw as [Rw|Rw]; apply SanTreeProofs.in_strs_In in Rw; [left|right]; exact Rw).
  assert (Pl3 : f = false -> plain o2). { intros Ff. apply Pl2. unfold f'. rewrite Ff. cbn [orb]. clear -In_name. repeat (destruct In_name as [<-|In_name]; [reflexivity|]). destruct In_name. }
  assert (Raw : forall tx s' x l, append_text (negb (in_strs name rcdata_tags)) true tx = Some x -> ends_text name tx s' -> covers f s' l -> covers f (60 :: (ch :: n) ++ w ++ 62 :: tx ++ s') (IStart name attrs :: map IChar x ++ l)).
  { intros tx s' x l Ax Hs C. destruct (in_strs name rcdata_tags) eqn:Rc; cbn [negb] in Ax.
    - apply append_some in Ax. apply (CRcdata f ch n w attrs tx x s' l); try assumption. apply SanTreeProofs.in_strs_In in Rc. exact Rc.
    - rewrite append_raw in Ax. assert (x = map nul (newlines tx)) as -> by congruence. apply (CRaw f ch n w attrs tx s' l); try assumption. rewrite orb_false_r in Rw. apply SanTreeProofs.in_strs_In in Rw. exact Rw. }
  assert (Rf : forall tx y, r = tx ++ y -> append_text (negb (in_strs name rcdata_tags)) true tx = None -> ~ refs_ok true (60 :: (ch :: n) ++ w ++ 62 :: r)).
  { intros tx y Er An R. apply (append_none _ _ _ An). apply refs_weaken. rewrite Er in R. apply (refs_mid true (60 :: (ch :: n) ++ w ++ [62]) tx y). cbn [app] in *. rewrite <- !app_assoc. exact R. }
  pose proof (end_tag_shape name r In_name) as Fs. destruct (find_end_tag name r) as [[p0 q0]|] eqn:Fe.
  2:{ destruct Fs as [Fs1 Fs2]. destruct (append_text (negb (in_strs name rcdata_tags)) true r) as [x|] eqn:Ax; [|exact (Rf r [] (eq_sym (app_nil_r r)) Ax)]. destruct fuel; [lia|]. rewrite scan_nil. exists (IStart name attrs :: map IChar x ++ []). split; [|rewrite items_app, Pre, items_flush, app_nil_r, <- app_assoc; reflexivity].
      rewrite <- (app_nil_r r). apply Raw; [exact Ax| |constructor]. split; [left; reflexivity|]. rewrite app_nil_r. split; [intros Q1 Q2 x0 y0 E0 _; exact (Fs2 Q1 Q2 (S (List.length x0)) x0 y0 E0 (Nat.lt_succ_diag_r _))|intros Q1 x0 y0 E0 _; exact (Fs1 Q1 (S (List.length x0)) x0 y0 E0 (Nat.lt_succ_diag_r _))]. }
  destruct Fs as ((m & v & Er & Am & Lt & Hv & Hq) & Fs1 & Fs2). destruct (lower_of_name name m In_name Am) as (Lm & c0 & n0 & -> & Ac0 & Nm0).
  assert (Hv' : match v with x :: _ => In x end_stops | [] => True end) by (destruct v; [exact Logic.I|apply in_stops; exact Hv]). pose proof (end_tag_ok c0 n0 v Ac0 Nm0 Hv') as K. cbv zeta in K. rewrite <- Hq in K. set (r2 := skipn q0 r) in *. set (z := 60 :: 47 :: (c0 :: n0) ++ v) in *.
  assert (Lp : List.length (firstn p0 r) = p0) by (apply (firstn_split p0 r z Er); discriminate).
  assert (Cl2 : closes name z). { exists (c0 :: n0), v. split; [reflexivity|]. split; [exact Am|]. destruct v; [discriminate Hv|exact Hv']. }
  assert (Et2 : ends_text name (firstn p0 r) z). { split; [right; exact Cl2|]. rewrite <- Er, Lp. split; [intros Q1 Q2; exact (Fs2 Q1 Q2)|exact Fs1]. }
  set (tx := firstn p0 r) in *.
  destruct (append_text (negb (in_strs name rcdata_tags)) true tx) as [x|] eqn:Ax; [|exact (Rf tx _ Er Ax)].
  assert (Es2 : ends [62] s = ends [62] (c0 :: n0 ++ v)).
  { apply (Ends (((ch :: n) ++ w ++ [62]) ++ tx ++ [60; 47]) (c0 :: n0 ++ v)); [|discriminate]. rewrite E. rewrite Er at 1. unfold z. cbn [app]. repeat (rewrite <- app_assoc; cbn [app]). reflexivity. }
  rewrite Es2. destruct (nil r2 && negb (ends [62] (c0 :: n0 ++ v))).
  { destruct fuel; [lia|]. rewrite scan_nil. cbn [flush emit]. exists (IStart name attrs :: map IChar x ++ []). split; [|rewrite items_app, Pre, app_nil_r, items_flush, app_nil_r, <- app_assoc; reflexivity].
    rewrite Er. apply Raw; [exact Ax|exact Et2|apply K]. }
  destruct K as (w2 & Ew2 & K). destruct (close_ok name o2 Co2) as (o3 & -> & Eo3 & Co3).
  assert (Ez : z = (60 :: 47 :: (c0 :: n0) ++ w2 ++ [62]) ++ r2) by (unfold z; rewrite Ew2; cbn [app]; rewrite <- !app_assoc; reflexivity).
  assert (Lr2 : (List.length r2 < fuel)%nat) by (assert (Q : List.length r = List.length (tx ++ z)) by (rewrite Er at 1; reflexivity); rewrite Ez in Q; repeat (rewrite ?app_length in Q; cbn [List.length app] in Q); lia).
  assert (Pl4 : f = false -> plain o3) by (intros Ff y I; apply (Pl3 Ff); rewrite Eo3 in I; exact (close_sub _ _ _ I)).
  pose proof (IH f [] o3 r2 Lr2 Co3 Pl4) as G.
  assert (Sh2 : 60 :: (ch :: n) ++ w ++ 62 :: r = (60 :: (ch :: n) ++ w ++ 62 :: tx ++ 60 :: 47 :: (c0 :: n0) ++ w2 ++ [62]) ++ r2) by (rewrite Er at 1; rewrite Ez; cbn [app]; repeat (rewrite <- app_assoc; cbn [app]); reflexivity).
  rewrite Sh2.
  assert (Em : forall a b c o, emit a (emit b (emit c o)) = emit (a ++ b ++ c) o) by (intros ? ? ? [?| | |]; cbn [emit]; rewrite ?app_assoc; reflexivity). rewrite Em.
  apply (good_step f f _ r2 _ [] (IStart name attrs :: map IChar x ++ [IEnd name])); [|exact G|rewrite items_app, Pre, items_app, items_flush, app_nil_r, <- app_assoc; reflexivity].
  intros l C. rewrite <- Sh2. change ((IStart name attrs :: map IChar x ++ [IEnd name]) ++ l) with (IStart name attrs :: (map IChar x ++ [IEnd name]) ++ l). rewrite <- app_assoc. rewrite Er at 1. apply Raw; [exact Ax|exact Et2|]. cbn [app]. rewrite <- Lm. exact (K f l C).
Qed.
