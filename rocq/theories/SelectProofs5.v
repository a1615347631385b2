From Coq Require Import List Arith Bool Lia.
From Verif Require Import Str StrFacts FinishModel FinishSpec FinishProofs SelectModel SelectSpec SelectProofs SelectProofs2 SelectProofs3 SelectProofs4.
Import ListNotations.
Open Scope list_scope. Open Scope nat_scope.

Lemma subs_in_ids o l : In o (flat_map subs l) -> forall x, In x (ids o) -> In x (flat_map ids l).
Proof. intros H x Hx. apply in_flat_map in H as (t & Ht & H). apply in_flat_map. exists t. split; [exact Ht|exact (subs_ids _ _ _ H Hx)]. Qed.
Lemma sub_unique t o o' : NoDup (ids t) -> In o (subs t) -> In o' (subs t) -> root o = root o' -> o = o'.
Proof.
  induction t as [n l IH] using tree_ind'. intros N Ho Ho' E. cbn [ids] in N. inversion N as [|? ? Nn Nl]; subst. cbn [subs] in Ho, Ho'. fold subs in *.
  destruct Ho as [<-|Ho], Ho' as [<-|Ho']; [reflexivity|exfalso; apply Nn; cbn in E; rewrite E; apply (subs_in_ids _ _ Ho'), root_in|exfalso; apply Nn; cbn in E; rewrite <- E; apply (subs_in_ids _ _ Ho), root_in|].
  clear Nn N. induction IH as [|t l Ht _ IHl]; [destruct Ho|]. cbn [flat_map] in *. apply nodup_app in Nl as (Na & Nb & Dj). apply in_app_iff in Ho as [Ho|Ho], Ho' as [Ho'|Ho'].
  - auto.
  - exfalso. apply (Dj (root o)); [apply (subs_ids _ _ _ Ho), root_in|rewrite E; apply (subs_in_ids _ _ Ho'), root_in].
  - exfalso. apply (Dj (root o)); [rewrite E; apply (subs_ids _ _ _ Ho'), root_in|apply (subs_in_ids _ _ Ho), root_in].
  - auto.
Qed.
Lemma subs_unique l o o' : NoDup (flat_map ids l) -> In o (flat_map subs l) -> In o' (flat_map subs l) -> root o = root o' -> o = o'.
Proof.
  induction l as [|t l IHl]; intros Nl Ho Ho' E; [destruct Ho|]. cbn [flat_map] in *. apply nodup_app in Nl as (Na & Nb & Dj). apply in_app_iff in Ho as [Ho|Ho], Ho' as [Ho'|Ho'].
  - exact (sub_unique t o o' Na Ho Ho' E).
  - exfalso. apply (Dj (root o)); [apply (subs_ids _ _ _ Ho), root_in|rewrite E; apply (subs_in_ids _ _ Ho'), root_in].
  - exfalso. apply (Dj (root o)); [rewrite E; apply (subs_ids _ _ _ Ho'), root_in|apply (subs_in_ids _ _ Ho), root_in].
  - auto.
Qed.
Lemma combine_nth p (l : list nat) (x q : nat) : In (x, q) (combine l (seq (S p) (List.length l))) -> exists i, q = S p + i /\ nth_error l i = Some x.
Proof.
  revert p. induction l as [|y l IH]; intros p H; [destruct H|]. cbn [List.length seq combine] in H. destruct H as [[= <- <-]|H]; [exists 0; split; [lia|reflexivity]|]. destruct (IH (S p) H) as (i & -> & E). exists (S i). split; [lia|exact E].
Qed.
Lemma located p l x q o ab : NoDup l -> In (x, q) (combine l (seq (S p) (List.length l))) -> stands p l o ab -> (fst ab <? q) && (q <=? snd ab) = mem x (flat_map ids (below o)).
Proof.
  intros N H (pre & post & E & E1 & E2). destruct (combine_nth p l x q H) as (i & -> & Ei). rewrite E1, E2. destruct o as [r k]. cbn [ids below List.length] in *. rewrite E in N, Ei.
  destruct (mem x (flat_map ids k)) eqn:M.
  - apply mem_In in M. apply In_nth_error in M as (j & Ej). assert (Hj : j < sizes k) by (apply nth_error_Some; congruence).
    assert (nth_error (pre ++ (r :: flat_map ids k) ++ post) (List.length pre + S j) = Some x) as Ej'. { rewrite nth_error_app2 by lia. replace (List.length pre + S j - List.length pre) with (S j) by lia. cbn [app nth_error]. rewrite nth_error_app1 by exact Hj. exact Ej. }
    assert (i = List.length pre + S j) as ->. { apply (proj1 (NoDup_nth_error _) N); [apply nth_error_Some; congruence|congruence]. }
    apply andb_true_iff. split; [apply Nat.ltb_lt; lia|apply Nat.leb_le; lia].
  - apply andb_false_iff. destruct (Nat.ltb_spec (S (p + List.length pre)) (S p + i)) as [Lt|Ge]; [right|now left]. apply Nat.leb_gt.
    destruct (le_lt_dec (S p + i) (p + List.length pre + S (sizes k))) as [Le|Gt]; [|exact Gt]. exfalso. rewrite nth_error_app2 in Ei by lia. destruct (i - List.length pre) as [|j] eqn:Ej; [lia|]. cbn [app nth_error] in Ei. rewrite nth_error_app1 in Ei by lia. apply nth_error_In, mem_In in Ei. congruence.
Qed.
Lemma marks_fst inf p l : map fst (marks inf p l) = filter (fun x => name_is (u "selectedcontent") (inf x)) l.
Proof.
  unfold marks. revert p. induction l as [|x l IH]; intros p; [reflexivity|]. cbn [List.length seq combine filter fst]. destruct (name_is _ (inf x)); cbn [map fst]; now rewrite IH.
Qed.
Lemma nodup_filter {A} (f : A -> bool) l : NoDup l -> NoDup (filter f l).
Proof. induction 1 as [|x l Hx _ IH]; [constructor|]. cbn. destruct (f x); [constructor; [intros H; apply filter_In in H; tauto|exact IH]|exact IH]. Qed.
Lemma options_sub inf off t o b : In (o, b) (options inf off t) -> In o (subs t) /\ name_is (u "option") (inf (root o)) = true.
Proof.
  revert off. induction t as [n l IH] using tree_ind'. rewrite Forall_forall in IH. intros off H. cbn [options subs] in *. fold subs. apply in_app_iff in H as [H|H].
  - destruct (name_is (u "option") (inf n)) eqn:E; [|destruct H]. destruct H as [[= <- <-]|[]]. split; [now left|exact E].
  - destruct (name_is (u "datalist") (inf n)); [destruct H|]. apply in_flat_map in H as (t & Ht & H). destruct (IH t Ht _ H) as [H1 H2]. split; [right; apply in_flat_map; eauto|exact H2].
Qed.
Lemma hd_in {A} (l : list A) x : hd_error l = Some x -> In x l.
Proof. destruct l; [discriminate|]. intros [= <-]. now left. Qed.
Lemma choice_in inf t o : choice inf t = Some o -> exists b, In (o, b) (flat_map (options inf false) (below t)).
Proof.
  unfold choice. set (all := flat_map _ _). set (m := filter _ (map fst all)).
  assert (Hm : forall x, In x m -> exists b, In (x, b) all). { intros x Hx. apply filter_In in Hx as [Hx _]. apply in_map_iff in Hx as ([y b] & <- & Hx). exists b. exact Hx. }
  destruct (if has_attr _ _ then hd_error m else last_of m) as [x|] eqn:E.
  - intros [= <-]. apply Hm. destruct (has_attr _ _); [now apply hd_in|]. unfold last_of in E. apply hd_in in E. now apply in_rev.
  - intros H. apply hd_in in H. apply in_map_iff in H as ([y b] & <- & H). apply filter_In in H as [H _]. exists b. exact H.
Qed.
Lemma span_in n l ab : span_of n l = Some ab -> In (n, ab) l.
Proof. induction l as [|[m v] l IH]; [discriminate|]. cbn. destruct (Nat.eqb_spec m n) as [->|]; [intros [= <-]; now left|right; auto]. Qed.
Lemma span_some n l ab : In (n, ab) l -> exists ab', span_of n l = Some ab'.
Proof. induction l as [|[m v] l IH]; [intros []|]. cbn. destruct (Nat.eqb_spec m n) as [->|Ne]; [eauto|]. intros [[= -> ->]|H]; [contradiction|auto]. Qed.

Section view.
Variables dr un : list nat.
(* after everything has been put in place *)
Lemma show_all inf0 n0 chosen full f s ts : NoDup (flat_map ids ts) -> (forall x, In x (flat_map ids ts) -> x < n0) -> filled inf0 n0 chosen full f s ->
  (forall x, In x (flat_map ids ts) -> f x <> None <-> name_is (u "selectedcontent") (inf0 x) = true /\ match chosen with Some c => mem x (flat_map ids (below c)) | None => false end = false) ->
  (forall c, chosen = Some c -> name_is (u "selectedcontent") (inf0 (root c)) = false) ->
  (forall c, chosen = Some c -> forall t x, In t ts -> In x (ids t) -> In x (ids c) -> In c (subs t)) ->
  Forall2 (shown inf0 (match chosen with Some c => Nat.eqb (root c) | None => fun _ => false end) (content inf0 chosen) full) ts (map (view (info s)) (map (setall f) ts)).
Proof.
  intros N B F D Co Cs. assert (W : forall t, NoDup (ids t) -> (forall x, In x (ids t) -> x < n0) -> 
     (forall x, In x (ids t) -> f x <> None <-> name_is (u "selectedcontent") (inf0 x) = true /\ match chosen with Some c => mem x (flat_map ids (below c)) | None => false end = false) ->
     (forall c, chosen = Some c -> forall x, In x (ids t) -> In x (ids c) -> In c (subs t)) ->
     shown inf0 (match chosen with Some c => Nat.eqb (root c) | None => fun _ => false end) (content inf0 chosen) full t (view (info s) (setall f t))).
  { clear N B D Cs ts. intros t. induction t as [n l IH] using tree_ind'. rewrite Forall_forall in IH. intros N B D Cs. cbn [ids] in N. inversion N as [|? ? Nn Nl]; subst.
    destruct (match chosen with Some c => Nat.eqb (root c) | None => fun _ => false end n) eqn:Eo.
    - destruct chosen as [c|] eqn:Ec; [|discriminate]. apply Nat.eqb_eq in Eo. assert (c = T n l) as ->.
      { apply (sub_unique (T n l)); [exact N|apply (Cs c eq_refl n); [now left|rewrite <- Eo; apply root_in]|now left|exact Eo]. }
      assert (setall f (T n l) = T n l) as ->.
      { apply setall_none. intros x Hx. destruct (f x) eqn:Ex; [|reflexivity]. exfalso. destruct (proj1 (D x Hx)) as [M1 M2]; [congruence|]. cbn [below] in M2. destruct Hx as [<-|Hx]; [pose proof (Co _ eq_refl) as Cq; cbn [root] in Cq; congruence|]. apply mem_In in Hx. congruence. }
      rewrite (view_ext (info s) inf0); [|intros x Hx; apply (g_info _ _ _ _ _ _ F), B, Hx]. apply in_option. cbn [root]. apply Nat.eqb_refl.
    - assert (En : info s n = inf0 n) by (apply (g_info _ _ _ _ _ _ F), B; now left).
      assert (Out : match chosen with Some c => mem n (flat_map ids (below c)) | None => false end = false).
      { destruct chosen as [c|] eqn:Ec; [|reflexivity]. destruct (mem n (flat_map ids (below c))) eqn:M; [|reflexivity]. exfalso. apply mem_In in M. assert (Hc : In n (ids c)) by (destruct c; now right).
        destruct (Cs c eq_refl n (or_introl eq_refl) Hc) as [<-|H]; [cbn in Eo; rewrite Nat.eqb_refl in Eo; discriminate|]. apply Nn. exact (subs_in_ids _ _ H n Hc). }
      cbn [setall]. destruct (f n) as [new|] eqn:Ef.
      + destruct (proj1 (D n (or_introl eq_refl))) as [M1 _]; [congruence|]. cbn [view]. rewrite En. destruct (g_new _ _ _ _ _ _ F n new Ef) as [_ [->|[Ef' ->]]]; [now apply marker|now apply cut].
      + assert (Nm : name_is (u "selectedcontent") (inf0 n) = false). { destruct (name_is (u "selectedcontent") (inf0 n)) eqn:M; [|reflexivity]. exfalso. apply (proj2 (D n (or_introl eq_refl))); [now split|exact Ef]. }
        cbn [view]. rewrite En. apply other; [exact Eo|exact Nm|].
        assert (K : forall u, In u l -> shown inf0 (match chosen with Some c => Nat.eqb (root c) | None => fun _ => false end) (content inf0 chosen) full u (view (info s) (setall f u))).
        { intros v Hv. assert (Sub : forall x, In x (ids v) -> In x (flat_map ids l)) by (intros x Hx; apply in_flat_map; eauto). apply IH; [exact Hv| | | |].
          - clear -Nl Hv. induction l as [|w l IHl]; [destruct Hv|]. cbn in Nl. apply nodup_app in Nl as (Na & Nb & _). destruct Hv as [->|Hv]; auto.
          - intros x Hx. apply B. right. auto.
          - intros x Hx. apply D. right. auto.
          - intros c Ec x Hx Hc. destruct (Cs c Ec x (or_intror (Sub x Hx)) Hc) as [<-|H]; [subst chosen; cbn in Eo; rewrite Nat.eqb_refl in Eo; discriminate|]. apply in_flat_map in H as (w & Hw & H).
            assert (w = v) as <-; [|exact H]. pose proof (subs_ids _ _ _ H Hc) as Hxw. clear -Nl Hv Hw Hx Hxw. induction l as [|z l IHl]; [destruct Hv|]. cbn in Nl. apply nodup_app in Nl as (Na & Nb & Dj).
            destruct Hv as [->|Hv], Hw as [->|Hw]; [reflexivity| | |auto]; exfalso; apply (Dj x); auto; apply in_flat_map; eauto. }
        clear -K. induction l as [|v l IHl]; [constructor|]. cbn [map]. constructor; [apply K; now left|]. apply IHl. intros w Hw. apply K. now right. }
  clear Co. induction ts as [|t ts IH]; [constructor|]. cbn [flat_map map] in *. apply nodup_app in N as (Na & Nb & Dj). constructor.
  - apply W; [exact Na|intros; apply B; apply in_app_iff; now left|intros; apply D; apply in_app_iff; now left|]. intros c Ec x. apply (Cs c Ec t x (or_introl eq_refl)).
  - apply IH; [exact Nb|intros; apply B; apply in_app_iff; now right|intros; apply D; apply in_app_iff; now right|]. intros c Ec v x Hv. apply (Cs c Ec v x (or_intror Hv)).
Qed.
Lemma project_view n l s t' s' full : name_is (u "select") (info s n) = true -> NoDup (ids (T n l)) -> (forall x, In x (ids (T n l)) -> x < next s) -> (full = true -> cost (info s) (T n l) <= remaining s) ->
  project_select dr un (T n l) s = (t', s') -> exists l', t' = T n l' /\ mirrored (info s) full (T n l) (map (view (info s')) l').
Proof.
  intros Hs N B Hb E. unfold project_select in E. destruct (scan_select (info s) n l (has_attr (u "multiple") (info s (root (T n l)))) Hs) as (sc & Esc & [S1 S2 S3 S4 (new & S5 & S6 & S7)]). rewrite Esc in E. clear Esc.
  set (mu := has_attr (u "multiple") (info s (root (T n l)))) in *. cbn [ids] in N. inversion N as [|? ? Nn Nl]; subst. cbn [markers spans selected first position app] in S2, S3, S4, S5, S6. rewrite app_nil_r in S5.
  set (chosen := match selected sc with Some o => Some o | None => first sc end) in *.
  assert (Ech : chosen = choice (info s) (T n l)).
  { unfold chosen, choice. rewrite S2, S3. cbn [or_else below]. fold mu. unfold chosen_in, enabled_in. destruct mu; cbn [or_else]; [reflexivity|]. destruct (last_of _); reflexivity. }
  assert (E' : fill_markers dr un chosen (match chosen with Some o => span_of (root o) (spans sc) | None => None end) (markers sc) (T n l) s = (t', s')). { destruct (markers sc); [injection E as <- <-; reflexivity|exact E]. } clear E.
  set (inner := fun m => match chosen with Some c => mem m (flat_map ids (below c)) | None => false end).
  assert (Hc : forall c, chosen = Some c -> In c (flat_map subs l) /\ name_is (u "option") (info s (root c)) = true /\ exists b, In (c, b) (flat_map (options (info s) false) l)).
  { intros c Ec. rewrite Ech in Ec. destruct (choice_in _ _ _ Ec) as (b & Hin). cbn [below] in Hin. split; [|split; [|eauto]]; apply in_flat_map in Hin as (t & Ht & Hin); destruct (options_sub _ _ _ _ _ Hin) as [H1 H2]; [apply in_flat_map; eauto|exact H2]. }
  assert (Mp : map fst (markers sc) = filter (fun x => name_is (u "selectedcontent") (info s x)) (flat_map ids l)) by (rewrite S4; apply marks_fst).
  destruct (fill_view dr un (T n l) (info s) (next s) chosen inner (match chosen with Some o => span_of (root o) (spans sc) | None => None end) full) with (ms := markers sc) (f := fun _ : nat => @None (list tree)) (s := s) (t' := t') (s' := s') as (f' & -> & F' & D').
  - intros o x Eo Hx. apply B. right. apply (subs_in_ids o l); [apply Hc; exact Eo|exact Hx].
  - rewrite setall_none by reflexivity. exact E'.
  - constructor; [lia|reflexivity|intros m k [=]].
  - rewrite Mp. now apply nodup_filter.
  - intros m pos Hm. split; [reflexivity|]. assert (Hf : In m (flat_map ids l)) by (apply (in_map fst) in Hm; rewrite Mp in Hm; now apply filter_In in Hm). split; [apply B; now right|].
    unfold inner. destruct chosen as [c|] eqn:Ec; [|reflexivity]. destruct (Hc c eq_refl) as (C1 & C2 & b & C3). destruct (S7 c b C3) as (ab & Hab). rewrite S5. destruct (span_some _ _ _ Hab) as ((a1, b1) & Esp). rewrite Esp.
    apply span_in in Esp. destruct (S6 _ _ Esp) as (o & Ho & Er & St). assert (o = c) as -> by exact (subs_unique l o c Nl Ho C1 Er). rewrite S4 in Hm. apply filter_In in Hm as [Hm _]. exact (located 1 (flat_map ids l) m pos c (a1, b1) Nl Hm St).
  - intros Hf. specialize (Hb Hf). unfold cost in Hb. cbn [below] in Hb. rewrite <- Ech, <- Mp, map_length in Hb. unfold csize. destruct chosen as [[r k]|]; exact Hb.
  - assert (Nf : f' n = None). { destruct (f' n) eqn:Ef; [|reflexivity]. exfalso. destruct (proj1 (D' n)) as [[]|[H _]]; [congruence|reflexivity|]. rewrite Mp in H. apply filter_In in H as [H _]. contradiction. }
    cbn [setall]. rewrite Nf. eexists. split; [reflexivity|]. unfold mirrored. rewrite <- Ech. cbn [below].
    assert (Sh : Forall2 (shown (info s) (match chosen with Some c => Nat.eqb (root c) | None => fun _ => false end) (content (info s) chosen) full) l (map (view (info s')) (map (setall f') l))).
    { apply (show_all (info s) (next s)); auto.
      - intros x Hx. apply B. now right.
      - intros x Hx. rewrite D'. rewrite Mp, filter_In. unfold inner. split; [intros [[]|[[_ H] Q]]; [reflexivity|now split]|intros [H Q]; right; repeat split; auto].
      - intros c Ec. destruct (Hc c Ec) as (_ & H & _). destruct (info s (root c)) as [m ns at_| |]; [|reflexivity|reflexivity]. cbn in *. apply str_eqb_eq in H. subst m. reflexivity.
      - intros c Ec t x Ht Hx Hxc. destruct (Hc c Ec) as (H & _). apply in_flat_map in H as (w & Hw & H). assert (w = t) as <-; [|exact H]. pose proof (subs_ids _ _ _ H Hxc) as Hxw. clear -Nl Ht Hw Hx Hxw.
        induction l as [|z l IHl]; [destruct Ht|]. cbn in Nl. apply nodup_app in Nl as (Na & Nb & Dj). destruct Ht as [->|Hv], Hw as [->|Hw]; [reflexivity| | |auto]; exfalso; apply (Dj x); auto; apply in_flat_map; eauto. }
    destruct chosen as [[r k]|]; exact Sh.
Qed.
End view.
