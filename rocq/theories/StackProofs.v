(* C38: the index and the list *)
From Coq Require Import ZArith Lia ZifyBool ZifyN ZifyNat Sorted.
From Verif Require Import Str StrFacts StackModel StackSpec.
From Verif Require MiscProofs.
Open Scope N_scope.

(* ---------- bisect ---------- *)
Definition below (x : nat) (l : list nat) : Prop := forall y, In y l -> (y < x)%nat.
Definition above (x : nat) (l : list nat) : Prop := forall y, In y l -> (x < y)%nat.
Lemma bisect_l_spec A B x : below x A -> (forall y, In y B -> (x <= y)%nat) -> forall f lo hi, (hi - lo < f)%nat -> (lo <= List.length A <= hi)%nat -> (hi <= List.length (A ++ B))%nat -> bisect_l f (A ++ B) x lo hi = List.length A.
Proof.
  intros HA HB. induction f as [|f IH]; intros lo hi Lf L Lh; [lia|]. cbn [bisect_l]. destruct (Nat.ltb_spec lo hi) as [Lt|Ge]; [|lia].
  set (mid := ((lo + hi) / 2)%nat). assert (M : (lo <= mid < hi)%nat) by (unfold mid; split; [apply Nat.div_le_lower_bound; lia|apply Nat.div_lt_upper_bound; lia]).
  clearbody mid. destruct (Nat.lt_ge_cases mid (List.length A)) as [C|C].
  - rewrite app_nth1 by exact C. assert (nth mid A O < x)%nat by (apply HA; apply nth_In; exact C). destruct (Nat.ltb_spec (nth mid A O) x) as [_|]; [|lia]. apply IH; lia.
  - rewrite app_nth2 by exact C. rewrite app_length in Lh. assert (x <= nth (mid - List.length A) B O)%nat by (apply HB; apply nth_In; lia). destruct (Nat.ltb_spec (nth (mid - List.length A) B O) x) as [|_]; [lia|]. apply IH; rewrite ?app_length; lia.
Qed.
Lemma bisect_left_app A B x : below x A -> (forall y, In y B -> (x <= y)%nat) -> bisect_left (A ++ B) x = List.length A.
Proof. intros HA HB. unfold bisect_left. apply bisect_l_spec; [exact HA|exact HB|lia| |lia]. rewrite app_length. lia. Qed.
Lemma bisect_r_spec A B x : (forall y, In y A -> (y <= x)%nat) -> above x B -> forall f lo hi, (hi - lo < f)%nat -> (lo <= List.length A <= hi)%nat -> (hi <= List.length (A ++ B))%nat -> MiscModel.bisect f (A ++ B) x lo hi = List.length A.
Proof.
  intros HA HB. induction f as [|f IH]; intros lo hi Lf L Lh; [lia|]. cbn [MiscModel.bisect]. destruct (Nat.ltb_spec lo hi) as [Lt|Ge]; [|lia].
  set (mid := ((lo + hi) / 2)%nat). assert (M : (lo <= mid < hi)%nat) by (unfold mid; split; [apply Nat.div_le_lower_bound; lia|apply Nat.div_lt_upper_bound; lia]).
  clearbody mid. destruct (Nat.lt_ge_cases mid (List.length A)) as [C|C].
  - rewrite app_nth1 by exact C. assert (nth mid A O <= x)%nat by (apply HA; apply nth_In; exact C). destruct (Nat.ltb_spec x (nth mid A O)) as [|_]; [lia|]. apply IH; lia.
  - rewrite app_nth2 by exact C. rewrite app_length in Lh. assert (x < nth (mid - List.length A) B O)%nat by (apply HB; apply nth_In; lia). destruct (Nat.ltb_spec x (nth (mid - List.length A) B O)) as [_|]; [|lia]. apply IH; rewrite ?app_length; lia.
Qed.
Lemma insort_app A B x : below x A -> above x B -> insort (A ++ B) x = A ++ x :: B.
Proof.
  intros HA HB. unfold insort, MiscModel.bisect_right. rewrite (bisect_r_spec A B x); [|intros y I; specialize (HA y I); lia|exact HB|lia| |lia]; [|rewrite app_length; lia].
  unfold ins_nth. rewrite firstn_app, firstn_all, skipn_app, skipn_all, Nat.sub_diag. cbn [firstn skipn app]. rewrite app_nil_r. reflexivity.
Qed.
Lemma del_app {T} (A B : list T) x : del_nth (List.length A) (A ++ x :: B) = Some (A ++ B).
Proof. induction A as [|a A IH]; [reflexivity|]. cbn [List.length app del_nth]. rewrite IH. reflexivity. Qed.
Lemma set_app {T} (A B : list T) x y : set_nth (List.length A) y (A ++ x :: B) = Some (A ++ y :: B).
Proof. induction A as [|a A IH]; [reflexivity|]. cbn [List.length app set_nth]. rewrite IH. reflexivity. Qed.
Lemma pop_app {T} (A : list T) x : pop_last (A ++ [x]) = Some A.
Proof. unfold pop_last. destruct (A ++ [x]) as [|y l] eqn:E; [destruct A; discriminate E|]. rewrite <- E, removelast_last. reflexivity. Qed.
Lemma top_app A x : top (A ++ [x]) = Some x.
Proof. induction A as [|a A IH]; [reflexivity|]. cbn [app top]. destruct (A ++ [x]) eqn:E; [destruct A; discriminate E|]. exact IH. Qed.
Lemma top_none A : top A = None -> A = [].
Proof. destruct (list_eq_dec Nat.eq_dec A []) as [|N0]; [auto|]. destruct (exists_last N0) as (l & x & ->). rewrite top_app. discriminate. Qed.
Lemma top_some A i : top A = Some i -> exists l, A = l ++ [i].
Proof. destruct (list_eq_dec Nat.eq_dec A []) as [->|N0]; [discriminate|]. destruct (exists_last N0) as (l & x & ->). rewrite top_app. intros H. injection H as <-. exists l. reflexivity. Qed.

(* ---------- dictionaries ---------- *)
Definition d_ok (d : dict) : Prop := NoDup (map fst d) /\ forall n l, In (n, l) d -> l <> [].
Lemma get_put n m l d : d_get m (d_put n l d) = if str_eqb n m then Some l else d_get m d.
Proof.
  induction d as [|[k b] d IH]; cbn [d_put d_get].
  - destruct (str_eqb n m); reflexivity.
  - destruct (str_eqb k n) eqn:E; cbn [d_get].
    + apply str_eqb_eq in E. subst k. destruct (str_eqb n m); reflexivity.
    + rewrite IH. destruct (str_eqb k m) eqn:F; [|reflexivity]. apply str_eqb_eq in F. subst m. destruct (str_eqb n k) eqn:G; [|reflexivity]. apply str_eqb_eq in G. subst n. rewrite str_eqb_refl in E. discriminate E.
Qed.
Lemma put_keys n l d : forall k, In k (map fst (d_put n l d)) <-> k = n \/ In k (map fst d).
Proof.
  intros k. induction d as [|[k0 b] d IH]; cbn [d_put map fst In]; [intuition congruence|]. destruct (str_eqb k0 n) eqn:E; cbn [map fst In].
  - apply str_eqb_eq in E. subst k0. intuition.
  - rewrite IH. intuition congruence.
Qed.
Lemma put_nodup n l d : NoDup (map fst d) -> NoDup (map fst (d_put n l d)).
Proof.
  induction d as [|[k b] d IH]; cbn [d_put map fst]; intros H; [repeat constructor; intros []|]. inversion H as [|? ? N1 H1]; subst. destruct (str_eqb k n) eqn:E; cbn [map fst]; [constructor; assumption|].
  constructor; [|apply IH; exact H1]. rewrite put_keys. intros [->|I]; [rewrite str_eqb_refl in E; discriminate E|exact (N1 I)].
Qed.
Lemma put_in n l d m b : In (m, b) (d_put n l d) -> (m, b) = (n, l) \/ In (m, b) d.
Proof.
  induction d as [|[k b0] d IH]; cbn [d_put In]; [intros [H|[]]; left; congruence|]. destruct (str_eqb k n) eqn:E; cbn [In].
  - apply str_eqb_eq in E. subst k. intros [H|H]; [left; congruence|right; right; exact H].
  - intros [H|H]; [right; left; exact H|]. destruct (IH H) as [G|G]; [left; exact G|right; right; exact G].
Qed.
Lemma get_del n m d : NoDup (map fst d) -> d_get m (d_del n d) = if str_eqb n m then None else d_get m d.
Proof.
  intros H. induction d as [|[k b] d IH]; cbn [d_del d_get]; [destruct (str_eqb n m); reflexivity|]. inversion H as [|? ? N1 H1]; subst. destruct (str_eqb k n) eqn:E; cbn [d_get].
  - apply str_eqb_eq in E. subst k. destruct (str_eqb n m) eqn:F; [|reflexivity]. apply str_eqb_eq in F. subst m. destruct (d_get n d) eqn:G; [|reflexivity]. exfalso. apply N1. clear - G. induction d as [|[k b'] d IH]; [discriminate G|]. cbn [d_get] in G. cbn [map fst In]. destruct (str_eqb k n) eqn:E; [left; apply str_eqb_eq in E; exact E|right; exact (IH G)].
  - rewrite IH by exact H1. destruct (str_eqb k m) eqn:F; [|reflexivity]. apply str_eqb_eq in F. subst m. destruct (str_eqb n k) eqn:G; [|reflexivity]. apply str_eqb_eq in G. subst n. rewrite str_eqb_refl in E. discriminate E.
Qed.
Lemma del_in n d m b : In (m, b) (d_del n d) -> In (m, b) d.
Proof. induction d as [|[k b0] d IH]; cbn [d_del In]; [auto|]. destruct (str_eqb k n); cbn [In]; [auto|]. intros [H|H]; auto. Qed.
Lemma del_nodup n d : NoDup (map fst d) -> NoDup (map fst (d_del n d)).
Proof.
  induction d as [|[k b] d IH]; cbn [d_del map fst]; intros H; [constructor|]. inversion H as [|? ? N1 H1]; subst. destruct (str_eqb k n); [exact H1|]. cbn [map fst]. constructor; [|exact (IH H1)].
  intros I. apply N1. apply in_map_iff in I as ([k' b'] & E & I). cbn in E. subst k'. apply del_in in I. apply in_map_iff. exists (k, b'). split; [reflexivity|exact I].
Qed.
Lemma get_in n d l : d_get n d = Some l -> In (n, l) d.
Proof. induction d as [|[k b] d IH]; cbn [d_get In]; [discriminate|]. destruct (str_eqb k n) eqn:E; [apply str_eqb_eq in E; intros H; left; congruence|intros H; right; exact (IH H)]. Qed.
Lemma in_get n d l : NoDup (map fst d) -> In (n, l) d -> d_get n d = Some l.
Proof.
  induction d as [|[k b] d IH]; cbn [d_get In map fst]; intros H I; [destruct I|]. inversion H as [|? ? N1 H1]; subst. destruct I as [I|I].
  - assert (k = n /\ b = l) as [-> ->] by (split; congruence). rewrite str_eqb_refl. reflexivity.
  - destruct (str_eqb k n) eqn:E; [|exact (IH H1 I)]. apply str_eqb_eq in E. subst k. exfalso. apply N1. apply in_map_iff. exists (n, l). split; [reflexivity|exact I].
Qed.
Lemma bucket_get n d : d_ok d -> d_get n d = match d_bucket n d with [] => None | l => Some l end.
Proof. intros [_ H]. unfold d_bucket. destruct (d_get n d) as [l|] eqn:E; [|reflexivity]. apply get_in in E. specialize (H _ _ E). destruct l; [contradiction|reflexivity]. Qed.
Lemma bucket_put n m l d : d_bucket m (d_put n l d) = if str_eqb n m then l else d_bucket m d.
Proof. unfold d_bucket. rewrite get_put. destruct (str_eqb n m); reflexivity. Qed.
Lemma put_ok n l d : d_ok d -> l <> [] -> d_ok (d_put n l d).
Proof. intros [A B] Hl. split; [apply put_nodup; exact A|]. intros m b I. apply put_in in I as [I|I]; [congruence|exact (B _ _ I)]. Qed.
Lemma shrink_ok n l d : d_ok d -> d_ok (d_shrink n l d).
Proof. intros H. destruct l as [|x l]; cbn [d_shrink]; [|apply put_ok; [exact H|discriminate]]. destruct H as [A B]. split; [apply del_nodup; exact A|]. intros m b I. apply del_in in I. exact (B _ _ I). Qed.
Lemma bucket_shrink n m l d : d_ok d -> d_bucket m (d_shrink n l d) = if str_eqb n m then l else d_bucket m d.
Proof. intros [A _]. destruct l as [|x l]; cbn [d_shrink]; [|apply bucket_put]. unfold d_bucket. rewrite get_del by exact A. destruct (str_eqb n m); reflexivity. Qed.

Lemma nget_put i j p d : n_get j (n_put i p d) = if i =? j then Some p else n_get j d.
Proof.
  induction d as [|[k q] d IH]; cbn [n_put n_get]; [reflexivity|]. destruct (N.eqb_spec k i) as [->|Nk]; cbn [n_get].
  - destruct (i =? j); reflexivity.
  - rewrite IH. destruct (N.eqb_spec k j) as [->|]; [|reflexivity]. destruct (N.eqb_spec i j); [congruence|reflexivity].
Qed.
Definition n_ok (d : nodes_) : Prop := NoDup (map fst d).
Lemma nput_keys i p d : forall k, In k (map fst (n_put i p d)) <-> k = i \/ In k (map fst d).
Proof.
  intros k. induction d as [|[k0 q] d IH]; cbn [n_put map fst In]; [intuition congruence|]. destruct (N.eqb_spec k0 i) as [->|Nk]; cbn [map fst In]; [intuition|]. rewrite IH. intuition congruence.
Qed.
Lemma nput_ok i p d : n_ok d -> n_ok (n_put i p d).
Proof.
  unfold n_ok. induction d as [|[k q] d IH]; cbn [n_put map fst]; intros H; [repeat constructor; intros []|]. inversion H as [|? ? N1 H1]; subst. destruct (N.eqb_spec k i) as [->|Nk]; cbn [map fst]; [constructor; assumption|].
  constructor; [|apply IH; exact H1]. rewrite nput_keys. intros [->|I]; [congruence|exact (N1 I)].
Qed.
Lemma ndel_keys i d k : In k (map fst (n_del i d)) -> In k (map fst d).
Proof. induction d as [|[k0 q] d IH]; cbn [n_del map fst In]; [auto|]. destruct (k0 =? i); cbn [map fst In]; intuition. Qed.
Lemma ndel_ok i d : n_ok d -> n_ok (n_del i d).
Proof.
  unfold n_ok. induction d as [|[k q] d IH]; cbn [n_del map fst]; intros H; [constructor|]. inversion H as [|? ? N1 H1]; subst. destruct (k =? i); [exact H1|]. cbn [map fst]. constructor; [|exact (IH H1)]. intros I. apply N1. exact (ndel_keys _ _ _ I).
Qed.
Lemma nget_key j d p : n_get j d = Some p -> In j (map fst d).
Proof. induction d as [|[k q] d IH]; cbn [n_get map fst In]; [discriminate|]. destruct (N.eqb_spec k j) as [->|]; [left; reflexivity|]. intros H. right. exact (IH H). Qed.
Lemma nget_del i j d : n_ok d -> n_get j (n_del i d) = if i =? j then None else n_get j d.
Proof.
  unfold n_ok. intros H. induction d as [|[k q] d IH]; cbn [n_del n_get]; [destruct (i =? j); reflexivity|]. inversion H as [|? ? N1 H1]; subst. destruct (N.eqb_spec k i) as [->|Nk]; cbn [n_get].
  - destruct (N.eqb_spec i j) as [->|]; [|reflexivity]. destruct (n_get j d) as [p|] eqn:E; [|reflexivity]. apply nget_key in E. contradiction.
  - rewrite IH by exact H1. destruct (N.eqb_spec k j) as [->|]; [|reflexivity]. destruct (N.eqb_spec i j); [congruence|reflexivity].
Qed.

(* ---------- the index represents a list of numbered items ---------- *)
Definition entries := list (nat * item).
Definition sel (P : item -> bool) (E : entries) : list nat := map fst (filter (fun e => P (snd e)) E).
Definition named_html (n : str) (it : item) : bool := in_html it && str_eqb (i_name it) n.
Definition named_other (n : str) (it : item) : bool := negb (in_html it) && str_eqb (i_name it) n.
Record rep (E : entries) (x : index) : Prop := {
  r_sorted : StronglySorted lt (map fst E);
  r_ids : NoDup (map (fun e => i_id (snd e)) E);
  r_hok : d_ok (x_html x);
  r_ook : d_ok (x_other x);
  r_nok : n_ok (x_nodes x);
  r_html : forall n, d_bucket n (x_html x) = sel (named_html n) E;
  r_other : forall n, d_bucket n (x_other x) = sel (named_other n) E;
  r_rendered : x_rendered x = sel (fun it => negb (is_marker it)) E;
  r_foreign : x_foreign x = sel foreign_boundary E;
  r_nodes : forall j i, n_get j (x_nodes x) = Some i <-> exists it, In (i, it) E /\ i_id it = j }.
Lemma sel_app P A B : sel P (A ++ B) = sel P A ++ sel P B.
Proof. unfold sel. rewrite filter_app, map_app. reflexivity. Qed.
Lemma sel_cons P i it B : sel P ((i, it) :: B) = if P it then i :: sel P B else sel P B.
Proof. unfold sel. cbn [filter snd]. destruct (P it); reflexivity. Qed.
Lemma sel_in P E y : In y (sel P E) -> In y (map fst E).
Proof. unfold sel. intros I. apply in_map_iff in I as (e & <- & I). apply filter_In in I as [I _]. apply in_map. exact I. Qed.
Lemma sorted_mid (A B : list nat) i : StronglySorted lt (A ++ i :: B) -> below i A /\ above i B /\ StronglySorted lt (A ++ B).
Proof.
  induction A as [|a A IH]; cbn [app]; intros H.
  - inversion H as [|? ? H1 H2]; subst. rewrite Forall_forall in H2. split; [intros y []|split; [exact H2|exact H1]].
  - inversion H as [|? ? H1 H2]; subst. destruct (IH H1) as (B1 & B2 & B3). rewrite Forall_forall in H2. split; [|split; [exact B2|]].
    + intros y [<-|I]; [apply H2; apply in_or_app; right; left; reflexivity|exact (B1 y I)].
    + constructor; [exact B3|]. apply Forall_forall. intros y I. apply H2. apply in_app_or in I. apply in_or_app. cbn [In]. tauto.
Qed.
Lemma mid_sorted (A B : list nat) i : StronglySorted lt (A ++ B) -> below i A -> above i B -> StronglySorted lt (A ++ i :: B).
Proof.
  induction A as [|a A IH]; cbn [app]; intros H HA HB.
  - constructor; [exact H|]. apply Forall_forall. exact HB.
  - inversion H as [|? ? H1 H2]; subst. rewrite Forall_forall in H2. constructor; [apply IH; [exact H1| |exact HB]; intros y I; apply HA; right; exact I|].
    apply Forall_forall. intros y I. apply in_app_or in I as [I|[<-|I]]; [apply H2; apply in_or_app; left; exact I|apply HA; left; reflexivity|apply H2; apply in_or_app; right; exact I].
Qed.
Lemma sel_below P A i : below i (map fst A) -> below i (sel P A).
Proof. intros H y I. apply H. exact (sel_in _ _ _ I). Qed.
Lemma sel_above P A i : above i (map fst A) -> above i (sel P A).
Proof. intros H y I. apply H. exact (sel_in _ _ _ I). Qed.

Lemma change E E' x it fd g fn ff : rep E x -> StronglySorted lt (map fst E') -> NoDup (map (fun e => i_id (snd e)) E') ->
  (forall P, P it = true -> g (sel P E) = Some (sel P E')) -> (forall P, P it = false -> sel P E' = sel P E) ->
  (forall d P, d_ok d -> P it = true -> d_bucket (i_name it) d = sel P E -> fd d = Some (d_shrink (i_name it) (sel P E') d)) ->
  (forall d, n_ok d -> n_ok (fn d)) ->
  (forall d, n_ok d -> (forall j i, n_get j d = Some i <-> exists it, In (i, it) E /\ i_id it = j) -> forall j i, n_get j (fn d) = Some i <-> exists it, In (i, it) E' /\ i_id it = j) ->
  (forall x, x_foreign x = sel foreign_boundary E -> ff x = if foreign_boundary it then on_foreign g x else Some x) ->
  exists x', bind (on_names it fd x) (fun x => let x := on_nodes fn x in bind (if negb (is_marker it) then on_rendered g x else Some x) ff) = Some x' /\ rep E' x'.
Proof.
  intros [R1 R2 R3 R4 R5 R6 R7 R8 R9 R10] S' I' HP HN HD N1 N2 HF.
  assert (O : exists x1, on_names it fd x = Some x1 /\ x_nodes x1 = x_nodes x /\ x_rendered x1 = x_rendered x /\ x_foreign x1 = x_foreign x /\ d_ok (x_html x1) /\ d_ok (x_other x1) /\
    (forall n, d_bucket n (x_html x1) = sel (named_html n) E') /\ (forall n, d_bucket n (x_other x1) = sel (named_other n) E')).
  { unfold on_names. destruct (in_html it) eqn:Eh.
    - rewrite (HD (x_html x) (named_html (i_name it)) R3); [|unfold named_html; rewrite Eh, str_eqb_refl; reflexivity|apply R6].
      cbn [option_map]. eexists. split; [reflexivity|]. cbn [x_nodes x_rendered x_foreign x_html x_other]. repeat (split; [reflexivity|]). split; [apply shrink_ok; exact R3|]. split; [exact R4|]. split.
      + intros n. rewrite bucket_shrink by exact R3. destruct (str_eqb (i_name it) n) eqn:En; [apply str_eqb_eq in En; subst n; reflexivity|]. rewrite R6. symmetry. apply HN. unfold named_html. rewrite Eh, En. reflexivity.
      + intros n. rewrite R7. symmetry. apply HN. unfold named_other. rewrite Eh. reflexivity.
    - rewrite (HD (x_other x) (named_other (i_name it)) R4); [|unfold named_other; rewrite Eh, str_eqb_refl; reflexivity|apply R7].
      cbn [option_map]. eexists. split; [reflexivity|]. cbn [x_nodes x_rendered x_foreign x_html x_other]. repeat (split; [reflexivity|]). split; [exact R3|]. split; [apply shrink_ok; exact R4|]. split.
      + intros n. rewrite R6. symmetry. apply HN. unfold named_html. rewrite Eh. reflexivity.
      + intros n. rewrite bucket_shrink by exact R4. destruct (str_eqb (i_name it) n) eqn:En; [apply str_eqb_eq in En; subst n; reflexivity|]. rewrite R7. symmetry. apply HN. unfold named_other. rewrite Eh, En. reflexivity. }
  destruct O as (x1 & -> & O1 & O2 & O3 & O4 & O5 & O6 & O7). cbn [bind]. cbv zeta. set (x2 := on_nodes fn x1).
  assert (P2 : x_html x2 = x_html x1 /\ x_other x2 = x_other x1 /\ x_nodes x2 = fn (x_nodes x) /\ x_rendered x2 = x_rendered x /\ x_foreign x2 = x_foreign x) by (unfold x2, on_nodes; cbn; rewrite O1; auto).
  clearbody x2. destruct P2 as (Q1 & Q2 & Q3 & Q4 & Q5).
  assert (Z : exists x3, (if negb (is_marker it) then on_rendered g x2 else Some x2) = Some x3 /\ x_html x3 = x_html x1 /\ x_other x3 = x_other x1 /\ x_nodes x3 = fn (x_nodes x) /\ x_rendered x3 = sel (fun it => negb (is_marker it)) E' /\ x_foreign x3 = x_foreign x).
  { destruct (negb (is_marker it)) eqn:Em.
    - unfold on_rendered. rewrite Q4, R8, (HP (fun it => negb (is_marker it)) Em). cbn [option_map]. eexists. split; [reflexivity|]. cbn. auto.
    - exists x2. split; [reflexivity|]. rewrite Q4, R8, (HN (fun it => negb (is_marker it)) Em). auto. }
  destruct Z as (x3 & -> & Z1 & Z2 & Z3 & Z4 & Z5). cbn [bind]. rewrite HF by (rewrite Z5; exact R9).
  assert (W : exists x4, (if foreign_boundary it then on_foreign g x3 else Some x3) = Some x4 /\ x_html x4 = x_html x1 /\ x_other x4 = x_other x1 /\ x_nodes x4 = fn (x_nodes x) /\ x_rendered x4 = sel (fun it => negb (is_marker it)) E' /\ x_foreign x4 = sel foreign_boundary E').
  { destruct (foreign_boundary it) eqn:Ef.
    - unfold on_foreign. rewrite Z5, R9, (HP foreign_boundary Ef). cbn [option_map]. eexists. split; [reflexivity|]. cbn. auto.
    - exists x3. split; [reflexivity|]. rewrite (HN foreign_boundary Ef), <- R9. auto. }
  destruct W as (x4 & -> & W1 & W2 & W3 & W4 & W5). exists x4. split; [reflexivity|]. split; try assumption; try (rewrite W1 || rewrite W2 || rewrite W3; auto); try (intros n; rewrite W1; auto); try (intros n; rewrite W2; auto).
Qed.
Lemma ids_mid A B i it : NoDup (map (fun e : nat * item => i_id (snd e)) (A ++ (i, it) :: B)) -> NoDup (map (fun e : nat * item => i_id (snd e)) (A ++ B)) /\ forall k y, In (k, y) (A ++ B) -> i_id y <> i_id it.
Proof.
  rewrite !map_app. cbn [map snd]. intros H. apply NoDup_remove in H as [H1 H2]. split; [exact H1|]. intros k y I Q. apply H2. rewrite <- map_app. apply in_map_iff. exists (k, y). split; [exact Q|exact I].
Qed.
Lemma mid_ids A B i it : NoDup (map (fun e : nat * item => i_id (snd e)) (A ++ B)) -> (forall k y, In (k, y) (A ++ B) -> i_id y <> i_id it) -> NoDup (map (fun e : nat * item => i_id (snd e)) (A ++ (i, it) :: B)).
Proof.
  intros H1 H2. rewrite map_app in *. cbn [map snd]. apply (NoDup_Add (a := i_id it) (l := map (fun e : nat * item => i_id (snd e)) A ++ map (fun e : nat * item => i_id (snd e)) B)); [apply Add_app|].
  split; [exact H1|]. rewrite <- map_app. intros I. apply in_map_iff in I as ([k y] & Q & I). exact (H2 _ _ I Q).
Qed.
Lemma in_mid (A B : entries) e e' : In e (A ++ e' :: B) <-> e = e' \/ In e (A ++ B).
Proof. rewrite !in_app_iff. cbn [In]. intuition congruence. Qed.
Lemma mid_ne {T} (U V : list T) z : U ++ z :: V <> [].
Proof. destruct U; discriminate. Qed.
Lemma shrink_put n l d : l <> [] -> d_shrink n l d = d_put n l d.
Proof. destruct l; [contradiction|reflexivity]. Qed.
Lemma sel_mid P A B i it : P it = true -> sel P (A ++ (i, it) :: B) = sel P A ++ i :: sel P B.
Proof. intros H. rewrite sel_app, sel_cons, H. reflexivity. Qed.
Lemma sel_mid_no P A B i it : P it = false -> sel P (A ++ (i, it) :: B) = sel P (A ++ B).
Proof. intros H. rewrite !sel_app, sel_cons, H. reflexivity. Qed.

(* inserting, removing, renumbering one entry *)
Lemma note_at_ok A B i it x : rep (A ++ B) x -> below i (map fst A) -> above i (map fst B) -> (forall k y, In (k, y) (A ++ B) -> i_id y <> i_id it) ->
  exists x', note_at it i x = Some x' /\ rep (A ++ (i, it) :: B) x'.
Proof.
  intros R HA HB Fr. unfold note_at. apply (change (A ++ B)).
  - exact R.
  - pose proof (r_sorted _ _ R) as St. rewrite map_app in *. cbn [map fst]. apply mid_sorted; assumption.
  - apply mid_ids; [exact (r_ids _ _ R)|exact Fr].
  - intros P H. rewrite sel_mid by exact H. rewrite sel_app. f_equal. apply insort_app; [apply sel_below; exact HA|apply sel_above; exact HB].
  - intros P H. apply sel_mid_no. exact H.
  - intros d P Hd H E. rewrite E, sel_mid, sel_app by exact H. rewrite insort_app; [|apply sel_below; exact HA|apply sel_above; exact HB]. rewrite shrink_put by apply mid_ne. reflexivity.
  - intros d. apply nput_ok.
  - intros d _ H j k. rewrite nget_put. destruct (N.eqb_spec (i_id it) j) as [<-|Nj].
    + split; [intros Q; injection Q as <-; exists it; split; [apply in_mid; left; reflexivity|reflexivity]|]. intros (y & I & Q). apply in_mid in I as [I|I]; [congruence|]. exfalso. exact (Fr _ _ I Q).
    + rewrite H. split; intros (y & I & Q); exists y; (split; [|exact Q]); [apply in_mid; right; exact I|]. apply in_mid in I as [I|I]; [exfalso; apply Nj; congruence|exact I].
  - intros y _. reflexivity.
Qed.
Lemma note_top_ok A i it x : rep A x -> below i (map fst A) -> (forall k y, In (k, y) A -> i_id y <> i_id it) -> exists x', note_top it i x = Some x' /\ rep (A ++ [(i, it)]) x'.
Proof.
  intros R HA Fr. unfold note_top. pose proof R as R0. rewrite <- (app_nil_r A) in R0, Fr. apply (change A).
  - exact R.
  - pose proof (r_sorted _ _ R) as St. rewrite map_app. cbn [map fst]. apply mid_sorted; [rewrite app_nil_r; exact St|exact HA|intros y []].
  - apply (mid_ids A []); [exact (r_ids _ _ R0)|exact Fr].
  - intros P H. rewrite sel_mid by exact H. reflexivity.
  - intros P H. rewrite sel_mid_no by exact H. rewrite app_nil_r. reflexivity.
  - intros d P Hd H E. rewrite E, sel_mid by exact H. rewrite shrink_put by apply mid_ne. reflexivity.
  - intros d. apply nput_ok.
  - intros d _ H j k. rewrite nget_put. destruct (N.eqb_spec (i_id it) j) as [<-|Nj].
    + split; [intros Q; injection Q as <-; exists it; split; [apply in_mid; left; reflexivity|reflexivity]|]. intros (y & I & Q). apply in_mid in I as [I|I]; [congruence|]. exfalso. exact (Fr _ _ I Q).
    + rewrite H. split; intros (y & I & Q); exists y; (split; [|exact Q]); [apply in_mid; right; rewrite app_nil_r; exact I|]. apply in_mid in I as [I|I]; [exfalso; apply Nj; congruence|rewrite app_nil_r in I; exact I].
  - intros y _. reflexivity.
Qed.
Lemma nodes_removed A B i it d : n_ok d -> NoDup (map (fun e : nat * item => i_id (snd e)) (A ++ (i, it) :: B)) -> (forall j i0, n_get j d = Some i0 <-> exists it0, In (i0, it0) (A ++ (i, it) :: B) /\ i_id it0 = j) ->
  forall j i0, n_get j (n_del (i_id it) d) = Some i0 <-> exists it0, In (i0, it0) (A ++ B) /\ i_id it0 = j.
Proof.
  intros Hd ND H j k. destruct (ids_mid _ _ _ _ ND) as [_ Fr]. rewrite nget_del by exact Hd. destruct (N.eqb_spec (i_id it) j) as [<-|Nj].
  - split; [discriminate|]. intros (y & I & Q). exfalso. exact (Fr _ _ I Q).
  - rewrite H. split; intros (y & I & Q); exists y; (split; [|exact Q]); [apply in_mid in I as [I|I]; [exfalso; apply Nj; congruence|exact I]|apply in_mid; right; exact I].
Qed.
Lemma get_of_bucket n d U V (i : nat) : d_bucket n d = U ++ i :: V -> d_get n d = Some (U ++ i :: V).
Proof. unfold d_bucket. destruct (d_get n d); [congruence|]. intros H. destruct U; discriminate H. Qed.
Lemma discard_ok A B i it x : rep (A ++ (i, it) :: B) x -> exists x', discard it i x = Some x' /\ rep (A ++ B) x'.
Proof.
  intros R. pose proof (r_sorted _ _ R) as St. rewrite map_app in St. cbn [map fst] in St. destruct (sorted_mid _ _ _ St) as (HA & HB & HAB).
  assert (G : forall P, P it = true -> del_nth (bisect_left (sel P (A ++ (i, it) :: B)) i) (sel P (A ++ (i, it) :: B)) = Some (sel P (A ++ B))).
  { intros P H. rewrite sel_mid, sel_app by exact H. rewrite bisect_left_app; [apply del_app|apply sel_below; exact HA|]. intros y [<-|I]; [lia|]. pose proof (sel_above P B i HB y I). lia. }
  unfold discard. apply (change (A ++ (i, it) :: B)) with (g := fun l => del_nth (bisect_left l i) l).
  - exact R.
  - rewrite map_app. exact HAB.
  - apply (ids_mid _ _ _ _ (r_ids _ _ R)).
  - exact G.
  - intros P H. symmetry. apply sel_mid_no. exact H.
  - intros d P Hd H E. pose proof (G P H) as GP. rewrite sel_mid in E, GP by exact H. rewrite (get_of_bucket _ _ _ _ _ E). cbn [bind]. rewrite GP. reflexivity.
  - intros d. apply ndel_ok.
  - intros d Hd H. apply (nodes_removed A B i it d Hd (r_ids _ _ R) H).
  - intros y _. reflexivity.
Qed.
Lemma forget_top_ok A i it x : rep (A ++ [(i, it)]) x -> exists x', forget_top it i x = Some x' /\ rep A x'.
Proof.
  intros R. pose proof (r_sorted _ _ R) as St. rewrite map_app in St. cbn [map fst] in St. destruct (sorted_mid _ _ _ St) as (HA & HB & HAB). rewrite app_nil_r in HAB.
  assert (G : forall P, P it = true -> pop_last (sel P (A ++ [(i, it)])) = Some (sel P A)) by (intros P H; rewrite sel_mid by exact H; apply pop_app).
  unfold forget_top. apply (change (A ++ [(i, it)])) with (g := pop_last) (ff := fun x => match top (x_foreign x) with Some j => if (j =? i)%nat then on_foreign pop_last x else Some x | None => Some x end).
  - exact R.
  - exact HAB.
  - pose proof (ids_mid _ _ _ _ (r_ids _ _ R)) as [Q _]. rewrite app_nil_r in Q. exact Q.
  - exact G.
  - intros P H. rewrite sel_mid_no by exact H. rewrite app_nil_r. reflexivity.
  - intros d P Hd H E. pose proof (G P H) as GP. rewrite sel_mid in E, GP by exact H. rewrite (get_of_bucket _ _ _ _ _ E). cbn [bind]. rewrite GP. reflexivity.
  - intros d. apply ndel_ok.
  - intros d Hd H. pose proof (nodes_removed A [] i it d Hd (r_ids _ _ R) H) as Q. rewrite app_nil_r in Q. exact Q.
  - intros y E. rewrite E. destruct (foreign_boundary it) eqn:F.
    + rewrite sel_mid by exact F. change (sel foreign_boundary []) with (@nil nat). rewrite top_app, Nat.eqb_refl. reflexivity.
    + rewrite sel_mid_no by exact F. rewrite app_nil_r. destruct (top (sel foreign_boundary A)) as [j|] eqn:T; [|reflexivity]. apply top_some in T as (l & T). assert (J : In j (sel foreign_boundary A)) by (rewrite T; apply in_or_app; right; left; reflexivity).
      apply (sel_below _ _ _ HA) in J. destruct (Nat.eqb_spec j i); [lia|reflexivity].
Qed.
Lemma renumber_one_ok A B old new it x : rep (A ++ (old, it) :: B) x -> below new (map fst A) -> above new (map fst B) -> exists x', renumber_one it old new x = Some x' /\ rep (A ++ (new, it) :: B) x'.
Proof.
  intros R NA NB. pose proof (r_sorted _ _ R) as St. rewrite map_app in St. cbn [map fst] in St. destruct (sorted_mid _ _ _ St) as (HA & HB & HAB).
  assert (G : forall P, P it = true -> set_nth (bisect_left (sel P (A ++ (old, it) :: B)) old) new (sel P (A ++ (old, it) :: B)) = Some (sel P (A ++ (new, it) :: B))).
  { intros P H. rewrite !sel_mid by exact H. rewrite bisect_left_app; [apply set_app|apply sel_below; exact HA|]. intros y [<-|I]; [lia|]. pose proof (sel_above P B old HB y I). lia. }
  destruct (ids_mid _ _ _ _ (r_ids _ _ R)) as [ND Fr].
  unfold renumber_one. apply (change (A ++ (old, it) :: B)) with (g := fun l => set_nth (bisect_left l old) new l).
  - exact R.
  - rewrite map_app. cbn [map fst]. apply mid_sorted; assumption.
  - apply mid_ids; assumption.
  - exact G.
  - intros P H. rewrite !sel_mid_no by exact H. reflexivity.
  - intros d P Hd H E. pose proof (G P H) as GP. rewrite !sel_mid in E, GP by exact H. rewrite (get_of_bucket _ _ _ _ _ E). cbn [bind]. rewrite GP. cbn [option_map]. rewrite sel_mid by exact H. rewrite shrink_put by apply mid_ne. reflexivity.
  - intros d. apply nput_ok.
  - intros d _ H j k. rewrite nget_put. destruct (N.eqb_spec (i_id it) j) as [<-|Nj].
    + split; [intros Q; injection Q as <-; exists it; split; [apply in_mid; left; reflexivity|reflexivity]|]. intros (y & I & Q). apply in_mid in I as [I|I]; [congruence|]. exfalso. exact (Fr _ _ I Q).
    + rewrite H. split; intros (y & I & Q); exists y; (split; [|exact Q]); apply in_mid in I as [I|I]; try (exfalso; apply Nj; congruence); apply in_mid; right; exact I.
  - intros y _. reflexivity.
Qed.

(* ---------- numbered lists ---------- *)
Fixpoint num (k : nat) (l : list item) : entries := match l with [] => [] | it :: t => (k, it) :: num (S k) t end.
Lemma num_app k a b : num k (a ++ b) = num k a ++ num (k + List.length a) b.
Proof. revert k. induction a as [|y a IH]; intros k; cbn [app num List.length]; [rewrite Nat.add_0_r; reflexivity|]. rewrite IH. do 2 f_equal. f_equal. lia. Qed.
Lemma num_fst k l : map fst (num k l) = seq k (List.length l).
Proof. revert k. induction l as [|y l IH]; intros k; [reflexivity|]. cbn [num map fst List.length seq]. f_equal. apply IH. Qed.
Lemma num_ids k l : map (fun e : nat * item => i_id (snd e)) (num k l) = map i_id l.
Proof. revert k. induction l as [|y l IH]; intros k; [reflexivity|]. cbn [num map snd]. f_equal. apply IH. Qed.
Lemma num_in k l i it : In (i, it) (num k l) <-> (k <= i)%nat /\ nth_error l (i - k) = Some it.
Proof.
  revert k. induction l as [|y l IH]; intros k; cbn [num In].
  - split; [intros []|]. intros [_ H]. destruct (i - k)%nat; discriminate H.
  - rewrite IH. split.
    + intros [H|[H1 H2]]; [injection H as -> ->; split; [lia|]; rewrite Nat.sub_diag; reflexivity|]. split; [lia|]. replace (i - k)%nat with (S (i - S k)) by lia. exact H2.
    + intros [H1 H2]. destruct (Nat.eq_dec i k) as [->|Ne]; [left; rewrite Nat.sub_diag in H2; cbn in H2; congruence|right]. split; [lia|]. replace (i - k)%nat with (S (i - S k)) in H2 by lia. exact H2.
Qed.
Lemma num_below k l i : (k + List.length l <= i)%nat -> below i (map fst (num k l)).
Proof. intros H y I. rewrite num_fst in I. apply in_seq in I. lia. Qed.
Lemma num_above k l i : (i < k)%nat -> above i (map fst (num k l)).
Proof. intros H y I. rewrite num_fst in I. apply in_seq in I. lia. Qed.
Lemma below_app i A B : below i A -> below i B -> below i (A ++ B).
Proof. intros HA HB y I. apply in_app_or in I as [I|I]; auto. Qed.
Lemma renumber_up a it b1 : forall b2 x, rep (num 0 a ++ num (List.length a) b1 ++ num (List.length a + 1 + List.length b1) b2) x ->
  exists x', renumber_loop (a ++ it :: b1 ++ b2) true (rev (seq (List.length a + 1) (List.length b1))) x = Some x' /\ rep (num 0 a ++ num (List.length a + 1) (b1 ++ b2)) x'.
Proof.
  induction b1 as [|y b1 IH] using rev_ind; intros b2 x R.
  - cbn [List.length seq rev renumber_loop]. exists x. split; [reflexivity|]. cbn [num app List.length] in *. rewrite Nat.add_0_r in R. exact R.
  - rewrite app_length in *. cbn [List.length] in *. rewrite (Nat.add_1_r (List.length b1)) in *. rewrite seq_S, rev_app_distr. cbn [rev app renumber_loop].
    assert (Ny : nth_error (a ++ it :: (b1 ++ [y]) ++ b2) (List.length a + 1 + List.length b1) = Some y).
    { rewrite nth_error_app2 by lia. replace (List.length a + 1 + List.length b1 - List.length a)%nat with (S (List.length b1)) by lia. cbn [nth_error]. rewrite <- app_assoc. rewrite nth_error_app2 by lia. rewrite Nat.sub_diag. reflexivity. }
    rewrite Ny. cbn [bind]. rewrite num_app in R. cbn [num] in R.
    destruct (renumber_one_ok (num 0 a ++ num (List.length a) b1) (num (List.length a + 1 + S (List.length b1)) b2) (List.length a + List.length b1) (List.length a + 1 + List.length b1) y x) as (x' & E & R').
    + rewrite <- !app_assoc in *. exact R.
    + rewrite map_app. apply below_app; apply num_below; lia.
    + apply num_above. lia.
    + replace (List.length a + 1 + List.length b1 - 1)%nat with (List.length a + List.length b1)%nat by lia. rewrite E. cbn [bind]. rewrite <- app_assoc. cbn [app].
      apply (IH (y :: b2)). rewrite <- app_assoc in R'. cbn [num]. replace (S (List.length a + 1 + List.length b1)) with (List.length a + 1 + S (List.length b1))%nat by lia. exact R'.
Qed.
Lemma renumber_down a b2 : forall b1 x, rep (num 0 a ++ num (List.length a) b1 ++ num (List.length a + List.length b1 + 1) b2) x ->
  exists x', renumber_loop (a ++ b1 ++ b2) false (seq (List.length a + List.length b1) (List.length b2)) x = Some x' /\ rep (num 0 (a ++ b1 ++ b2)) x'.
Proof.
  induction b2 as [|y b2 IH]; intros b1 x R.
  - cbn [List.length seq renumber_loop]. exists x. split; [reflexivity|]. cbn [num] in R. rewrite !app_nil_r in *. rewrite num_app. exact R.
  - cbn [List.length seq renumber_loop].
    assert (Ny : nth_error (a ++ b1 ++ y :: b2) (List.length a + List.length b1) = Some y).
    { rewrite app_assoc, nth_error_app2 by (rewrite app_length; lia). rewrite app_length, Nat.sub_diag. reflexivity. }
    rewrite Ny. cbn [bind]. cbn [num] in R.
    destruct (renumber_one_ok (num 0 a ++ num (List.length a) b1) (num (S (List.length a + List.length b1 + 1)) b2) (List.length a + List.length b1 + 1) (List.length a + List.length b1) y x) as (x' & E & R').
    + rewrite <- !app_assoc in *. exact R.
    + rewrite map_app. apply below_app; apply num_below; lia.
    + apply num_above. lia.
    + rewrite E. cbn [bind]. destruct (IH (b1 ++ [y]) x') as (x2 & E2 & R2).
      * rewrite <- app_assoc in R'. rewrite num_app, app_length, <- app_assoc. cbn [num app List.length]. replace (List.length a + (List.length b1 + 1) + 1)%nat with (S (List.length a + List.length b1 + 1)) by lia. exact R'.
      * exists x2. rewrite app_length in E2. cbn [List.length] in E2. rewrite <- !app_assoc in *. cbn [app] in *. replace (S (List.length a + List.length b1)) with (List.length a + (List.length b1 + 1))%nat by lia. split; [exact E2|exact R2].
Qed.
Lemma rep_empty : rep [] (Index [] [] [] [] []).
Proof. split; cbn; try constructor; try constructor; try reflexivity; try (intros; reflexivity); [intros n l []|intros n l []|discriminate|intros (it & [] & _)]. Qed.
Lemma build_ok l2 : forall l1 x, rep (num 0 l1) x -> NoDup (map i_id (l1 ++ l2)) -> exists x', build_loop l2 (List.length l1) x = Some x' /\ rep (num 0 (l1 ++ l2)) x'.
Proof.
  induction l2 as [|y l2 IH]; intros l1 x R ND; [exists x; rewrite app_nil_r; split; [reflexivity|exact R]|].
  cbn [build_loop]. destruct (note_top_ok (num 0 l1) (List.length l1) y x R) as (x' & E & R').
  - apply num_below. lia.
  - intros k z I Q. rewrite map_app in ND. cbn [map] in ND. apply NoDup_remove_2 in ND. apply ND. apply in_or_app. left. rewrite <- Q. apply num_in in I as [_ I]. apply in_map. eapply nth_error_In. exact I.
  - rewrite E. cbn [bind]. destruct (IH (l1 ++ [y]) x') as (x2 & E2 & R2).
    + rewrite num_app. exact R'.
    + rewrite <- app_assoc. exact ND.
    + exists x2. rewrite app_length, Nat.add_1_r in E2. rewrite <- app_assoc in R2. split; assumption.
Qed.
Lemma build_rep l : NoDup (map i_id l) -> exists x, build l = Some x /\ rep (num 0 l) x.
Proof. intros ND. apply (build_ok l [] _ rep_empty ND). Qed.

(* ---------- operations ---------- *)
Record good (s : stack) : Prop := {
  g_ids : NoDup (map i_id (items s));
  g_p : p_count s = Z.of_nat (List.length (filter is_p (items s)));
  g_ix : forall x, ix s = Some x -> rep (num 0 (items s)) x }.
Lemma count_p_spec l : count_p l = Z.of_nat (List.length (filter is_p l)).
Proof.
  unfold count_p. assert (G : forall n, fold_left (fun n it => (n + one_if (is_p it))%Z) l n = (n + Z.of_nat (List.length (filter is_p l)))%Z); [|rewrite G; lia].
  induction l as [|y l IH]; intros n; cbn [fold_left filter List.length]; [lia|]. rewrite IH. unfold one_if. destruct (is_p y); cbn [List.length]; lia.
Qed.
Lemma new_stack_ok l : NoDup (map i_id l) -> exists s, new_stack l = Some s /\ items s = l /\ good s.
Proof.
  intros ND. unfold new_stack. destruct (_ <? _)%nat.
  - eexists. split; [reflexivity|]. split; [reflexivity|]. split; cbn; [exact ND|apply count_p_spec|discriminate].
  - destruct (build_rep l ND) as (x & -> & R). eexists. split; [reflexivity|]. split; [reflexivity|]. split; cbn; [exact ND|apply count_p_spec|intros y H; injection H as <-; exact R].
Qed.
Lemma count_mid a b it : Z.of_nat (List.length (filter is_p (a ++ it :: b))) = (Z.of_nat (List.length (filter is_p (a ++ b))) + one_if (is_p it))%Z.
Proof. rewrite !filter_app, !app_length. cbn [filter]. unfold one_if. destruct (is_p it); cbn [List.length]; lia. Qed.
Lemma ids_insert (a b : list item) it : NoDup (map i_id (a ++ b)) -> absent it (a ++ b) -> NoDup (map i_id (a ++ it :: b)).
Proof.
  intros H1 H2. rewrite map_app in *. cbn [map]. apply (NoDup_Add (a := i_id it) (l := map i_id a ++ map i_id b)); [apply Add_app|]. split; [exact H1|]. rewrite <- map_app. intros I. apply in_map_iff in I as (y & Q & I). exact (H2 _ I Q).
Qed.
Lemma ids_remove (a b : list item) it : NoDup (map i_id (a ++ it :: b)) -> NoDup (map i_id (a ++ b)) /\ absent it (a ++ b).
Proof.
  rewrite !map_app. cbn [map]. intros H. apply NoDup_remove in H as [H1 H2]. split; [exact H1|]. intros y I Q. apply H2. rewrite <- map_app, <- Q. apply in_map. exact I.
Qed.
Lemma gap_fresh (a b : list item) k it : absent it (a ++ b) -> forall i y, In (i, y) (num 0 a ++ num k b) -> i_id y <> i_id it.
Proof. intros H i y I. apply H. apply in_or_app. apply in_app_or in I as [I|I]; apply num_in in I as [_ I]; apply nth_error_In in I; auto. Qed.
(* putting an element between a and b *)
Lemma place_ok a b it s : good s -> items s = a ++ b -> absent it (a ++ b) -> exists s',
  (match ix s with
   | None => if (threshold <=? List.length (a ++ it :: b))%nat then option_map (fun x => Stack (a ++ it :: b) (p_count s + one_if (is_p it))%Z (Some x)) (build (a ++ it :: b)) else Some (Stack (a ++ it :: b) (p_count s + one_if (is_p it))%Z None)
   | Some x => option_map (fun x => Stack (a ++ it :: b) (p_count s + one_if (is_p it))%Z (Some x))
      (if (List.length a =? List.length (items s))%nat then note_top it (List.length a) x
       else StackModel.bind (renumber_from (a ++ it :: b) (List.length a + 1) true x) (note_at it (List.length a)))
   end) = Some s' /\ items s' = a ++ it :: b /\ good s'.
Proof.
  intros [G1 G2 G3] E Ab. rewrite E in *. pose proof (ids_insert a b it G1 Ab) as ND.
  assert (GP : (p_count s + one_if (is_p it))%Z = Z.of_nat (List.length (filter is_p (a ++ it :: b)))) by (rewrite G2, count_mid; reflexivity).
  destruct (ix s) as [x|].
  - specialize (G3 x eq_refl).
    assert (K : exists x', (if (List.length a =? List.length (a ++ b))%nat then note_top it (List.length a) x else StackModel.bind (renumber_from (a ++ it :: b) (List.length a + 1) true x) (note_at it (List.length a))) = Some x' /\ rep (num 0 (a ++ it :: b)) x').
    { destruct (Nat.eqb_spec (List.length a) (List.length (a ++ b))) as [El|Nl].
      - assert (b = []) as -> by (rewrite app_length in El; destruct b; [reflexivity|cbn in El; lia]). rewrite app_nil_r in *. destruct (note_top_ok (num 0 a) (List.length a) it x G3) as (x' & -> & R'); [apply num_below; lia|intros k y I; apply Ab; apply num_in in I as [_ I]; eapply nth_error_In; exact I|]. exists x'. split; [reflexivity|]. rewrite num_app. exact R'.
      - unfold renumber_from. replace (List.length (a ++ it :: b) - (List.length a + 1))%nat with (List.length b) by (rewrite app_length; cbn [List.length]; lia).
        destruct (renumber_up a it b [] x) as (x' & E1 & R1); [cbn [num]; rewrite app_nil_r; rewrite num_app in G3; exact G3|]. rewrite !app_nil_r in *. rewrite E1. cbn [StackModel.bind].
        destruct (note_at_ok (num 0 a) (num (List.length a + 1) b) (List.length a) it x' R1) as (x2 & -> & R2); [apply num_below; lia|apply num_above; lia|apply gap_fresh; exact Ab|]. exists x2. split; [reflexivity|]. rewrite num_app. cbn [num]. rewrite Nat.add_0_l, <- (Nat.add_1_r (List.length a)). exact R2. }
    destruct K as (x' & -> & R'). eexists. split; [reflexivity|]. split; [reflexivity|]. split; cbn; [exact ND|exact GP|intros y H; injection H as <-; exact R'].
  - destruct (_ <=? _)%nat.
    + destruct (build_rep _ ND) as (x & -> & R). eexists. split; [reflexivity|]. split; [reflexivity|]. split; cbn; [exact ND|exact GP|intros y H; injection H as <-; exact R].
    + eexists. split; [reflexivity|]. split; [reflexivity|]. split; cbn; [exact ND|exact GP|discriminate].
Qed.
(* taking an element out *)
Lemma removed_ok a b it x : rep (num 0 (a ++ it :: b)) x -> exists x', removed (a ++ b) it (List.length a) x = Some x' /\ rep (num 0 (a ++ b)) x'.
Proof.
  intros R. rewrite num_app in R. cbn [num] in R. unfold removed. destruct (Nat.eqb_spec (List.length a) (List.length (a ++ b))) as [El|Nl].
  - assert (b = []) as -> by (rewrite app_length in El; destruct b; [reflexivity|cbn in El; lia]). rewrite app_nil_r. apply forget_top_ok. exact R.
  - destruct (discard_ok _ _ _ _ _ R) as (x' & E & R'). cbn [Nat.add] in E. rewrite E. cbn [StackModel.bind]. unfold renumber_from. replace (List.length (a ++ b) - List.length a)%nat with (List.length b) by (rewrite app_length; lia).
    destruct (renumber_down a b [] x') as (x2 & E2 & R2); [cbn [num app List.length]; rewrite Nat.add_0_r, Nat.add_1_r; exact R'|]. cbn [List.length app] in *. rewrite Nat.add_0_r in E2. exists x2. split; assumption.
Qed.
Lemma take_ok a b it s : good s -> items s = a ++ it :: b -> exists s', option_map (Stack (a ++ b) (p_count s - one_if (is_p it))%Z) (with_index (ix s) (removed (a ++ b) it (List.length a))) = Some s' /\ items s' = a ++ b /\ good s'.
Proof.
  intros [G1 G2 G3] E. rewrite E in *. destruct (ids_remove _ _ _ G1) as [ND _]. assert (GP : (p_count s - one_if (is_p it))%Z = Z.of_nat (List.length (filter is_p (a ++ b)))) by (rewrite G2, count_mid; lia).
  destruct (ix s) as [x|]; cbn [with_index].
  - destruct (removed_ok a b it x (G3 x eq_refl)) as (x' & -> & R'). eexists. split; [reflexivity|]. split; [reflexivity|]. split; cbn; [exact ND|exact GP|intros y H; injection H as <-; exact R'].
  - eexists. split; [reflexivity|]. split; [reflexivity|]. split; cbn; [exact ND|exact GP|discriminate].
Qed.
