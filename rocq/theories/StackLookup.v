(* C38: lookups *)
From Coq Require Import ZArith Lia ZifyBool ZifyN ZifyNat Sorted.
From Verif Require Import Str StrFacts StackModel StackSpec StackProofs StackOps.
Open Scope N_scope.

(* z: the highest position satisfying P (position 0 counted), or -1 *)
Definition highest (P : item -> Prop) (l : list item) (z : Z) : Prop :=
  (z = (-1)%Z /\ forall j it, nth_error l j = Some it -> ~ P it) \/
  exists i it, z = Z.of_nat i /\ nth_error l i = Some it /\ P it /\ forall j it', (i < j)%nat -> nth_error l j = Some it' -> ~ P it'.
Lemma highest_or P Q l a b : highest P l a -> highest Q l b -> highest (fun it => P it \/ Q it) l (Z.max a b).
Proof.
  intros HP HQ. destruct HP as [[-> NP]|(i & x & -> & Ni & Pi & TP)]; destruct HQ as [[-> NQ]|(j & y & -> & Nj & Qj & TQ)].
  - left. split; [reflexivity|]. intros k it N1 [H|H]; [exact (NP _ _ N1 H)|exact (NQ _ _ N1 H)].
  - right. exists j, y. split; [lia|]. split; [exact Nj|]. split; [right; exact Qj|]. intros k it L N1 [H|H]; [exact (NP _ _ N1 H)|exact (TQ _ _ L N1 H)].
  - right. exists i, x. split; [lia|]. split; [exact Ni|]. split; [left; exact Pi|]. intros k it L N1 [H|H]; [exact (TP _ _ L N1 H)|exact (NQ _ _ N1 H)].
  - right. destruct (Nat.le_gt_cases i j) as [L0|L0].
    + exists j, y. split; [lia|]. split; [exact Nj|]. split; [right; exact Qj|]. intros k it L N1 [H|H]; [apply (TP k it); [lia|exact N1|exact H]|exact (TQ _ _ L N1 H)].
    + exists i, x. split; [lia|]. split; [exact Ni|]. split; [left; exact Pi|]. intros k it L N1 [H|H]; [exact (TP _ _ L N1 H)|apply (TQ k it); [lia|exact N1|exact H]].
Qed.
Lemma highest_ext P Q l z : (forall i it, nth_error l i = Some it -> (P it <-> Q it)) -> highest P l z -> highest Q l z.
Proof.
  intros E [[-> H]|(i & x & -> & Ni & Pi & T)].
  - left. split; [reflexivity|]. intros j it N1 K. apply (H j it N1). apply (E j it N1). exact K.
  - right. exists i, x. split; [reflexivity|]. split; [exact Ni|]. split; [apply (E i x Ni); exact Pi|]. intros j it L N1 K. apply (T j it L N1). apply (E j it N1). exact K.
Qed.
Lemma highest_none P l : (forall it, ~ P it) -> highest P l (-1).
Proof. intros H. left. split; [reflexivity|]. intros j it _. apply H. Qed.
Lemma highest_top P l : highest (fun it => P it = true) l (or_minus_one (top (sel P (num 0 l)))).
Proof.
  induction l as [|y l IH] using rev_ind; [left; split; [reflexivity|intros [|j] it H; discriminate H]|]. rewrite num_app. cbn [num Nat.add].
  assert (Ny : nth_error (l ++ [y]) (List.length l) = Some y) by (rewrite nth_error_app2, Nat.sub_diag by lia; reflexivity).
  assert (Hi : forall j it, (List.length l < j)%nat -> nth_error (l ++ [y]) j <> Some it) by (intros j it L H; assert (j < List.length (l ++ [y]))%nat by (apply nth_error_Some; congruence); rewrite app_length in *; cbn [List.length] in *; lia).
  destruct (P y) eqn:E.
  - rewrite sel_mid by exact E. change (sel P []) with (@nil nat). rewrite top_app. right. exists (List.length l), y. split; [reflexivity|]. split; [exact Ny|]. split; [exact E|]. intros j it L N1. destruct (Hi _ _ L N1).
  - rewrite sel_mid_no by exact E. rewrite app_nil_r.
    assert (Lo : forall j it, nth_error (l ++ [y]) j = Some it -> P it = true -> nth_error l j = Some it).
    { intros j it N1 K. destruct (Nat.lt_trichotomy j (List.length l)) as [C|[C|C]]; [rewrite nth_error_app1 in N1 by exact C; exact N1| |destruct (Hi _ _ C N1)]. subst j. rewrite Ny in N1. congruence. }
    destruct IH as [[-> H]|(i & x & -> & Ni & Pi & T)].
    + left. split; [reflexivity|]. intros j it N1 K. exact (H j it (Lo _ _ N1 K) K).
    + right. exists i, x. split; [reflexivity|]. split; [rewrite nth_error_app1; [exact Ni|apply nth_error_Some; congruence]|]. split; [exact Pi|]. intros j it L N1 K. exact (T j it L (Lo _ _ N1 K) K).
Qed.
(* from highest to topmost *)
Lemma topmost_or_none P l z : highest P l z -> topmost P l (or_none (Z.to_nat z)).
Proof.
  intros [[-> H]|(i & x & -> & Ni & Pi & T)].
  - cbn. intros j it _. apply H.
  - rewrite Nat2Z.id. destruct i as [|i]; cbn [or_none topmost].
    + intros j it L. apply T. lia.
    + split; [lia|]. split; [exists x; split; assumption|exact T].
Qed.
Lemma topmost_pos P l z : highest P l z -> topmost P l (if (0 <? z)%Z then Some (Z.to_nat z) else None).
Proof. intros H. apply topmost_or_none in H. destruct (Z.ltb_spec 0 z); [destruct (Z.to_nat z) eqn:E; [lia|exact H]|]. destruct (Z.to_nat z) eqn:E; [exact H|lia]. Qed.
Lemma topmost_minus P l z : highest P l z -> not_bottom P l -> exists r, z = or_minus1 r /\ topmost P l r.
Proof.
  intros H B. pose proof (topmost_pos _ _ _ H) as T. exists (if (0 <? z)%Z then Some (Z.to_nat z) else None). split; [|exact T]. destruct H as [[-> _]|(i & x & -> & Ni & Pi & _)]; [reflexivity|].
  destruct i as [|i]; [|cbn [or_minus1]; destruct (Z.ltb_spec 0 (Z.of_nat (S i))); [cbn [or_minus1]; lia|lia]]. destruct l as [|y l]; [discriminate Ni|]. cbn in Ni. injection Ni as ->. destruct (B Pi).
Qed.
Lemma topmost_ext P Q l r : (forall it, P it <-> Q it) -> topmost P l r -> topmost Q l r.
Proof.
  intros E. destruct r as [i|]; cbn [topmost].
  - intros (A & (it & B1 & B2) & C). split; [exact A|]. split; [exists it; split; [exact B1|apply E; exact B2]|]. intros j y L N1 K. apply (C j y L N1). apply E. exact K.
  - intros H j it L N1 K. apply (H j it L N1). apply E. exact K.
Qed.
Lemma scan_down_spec f l : forall i, (forall j it, (i < j)%nat -> nth_error l j = Some it -> f it = false) -> topmost (fun it => f it = true) l (scan_down f l i).
Proof.
  induction i as [|i IH]; intros H; cbn [scan_down].
  - intros j it L N1. rewrite (H j it) by (exact N1 || lia). discriminate.
  - destruct (nth_error l (S i)) as [it|] eqn:E.
    + destruct (f it) eqn:F.
      * split; [lia|]. split; [exists it; split; assumption|]. intros j y L N1. rewrite (H j y L N1). discriminate.
      * apply IH. intros j y L N1. destruct (Nat.eq_dec j (S i)) as [->|]; [congruence|]. apply (H j y); [lia|exact N1].
    + apply IH. intros j y L N1. destruct (Nat.eq_dec j (S i)) as [->|]; [congruence|]. apply (H j y); [lia|exact N1].
Qed.
Lemma scan_spec f s : topmost (fun it => f it = true) (items s) (scan f s).
Proof.
  apply scan_down_spec. intros j it L N1. assert (j < List.length (items s))%nat by (apply nth_error_Some; congruence). lia.
Qed.
Lemma last_where_spec P f l E : (forall i it, In (i, it) E -> nth_error l i = Some it) -> last_where f l (rev (sel P E)) = top (sel (fun it => P it && f it) E).
Proof.
  intros H. induction E as [|[i it] E IH] using rev_ind; [reflexivity|]. assert (Ni : nth_error l i = Some it) by (apply H; apply in_or_app; right; left; reflexivity).
  assert (IH' : last_where f l (rev (sel P E)) = top (sel (fun it => P it && f it) E)) by (apply IH; intros k y I; apply H; apply in_or_app; left; exact I). clear IH.
  destruct (P it) eqn:Ep.
  - rewrite (sel_mid P) by exact Ep. change (sel P []) with (@nil nat). rewrite rev_app_distr. cbn [rev app last_where]. rewrite Ni. destruct (f it) eqn:Ef.
    + rewrite sel_mid by (rewrite Ep, Ef; reflexivity). change (sel _ []) with (@nil nat). rewrite top_app. reflexivity.
    + rewrite sel_mid_no by (rewrite Ep, Ef; reflexivity). rewrite app_nil_r. exact IH'.
  - rewrite (sel_mid_no P) by exact Ep. rewrite sel_mid_no by (rewrite Ep; reflexivity). rewrite !app_nil_r. exact IH'.
Qed.
Lemma num_nth l i it : In (i, it) (num 0 l) -> nth_error l i = Some it.
Proof. intros I. apply num_in in I as [_ I]. rewrite Nat.sub_0_r in I. exact I. Qed.
Lemma get_top P n d l : d_ok d -> d_bucket n d = sel P (num 0 l) -> top_or_0 (d_get n d) = Z.to_nat (or_minus_one (top (sel P (num 0 l)))).
Proof. intros Hd H. rewrite (bucket_get n d Hd), H. destruct (sel P (num 0 l)) as [|i t]; [reflexivity|]. cbn [top_or_0]. destruct (top (i :: t)) as [k|]; cbn [or_minus_one]; [rewrite Nat2Z.id|]; reflexivity. Qed.
Lemma max_to_nat a b : (-1 <= a)%Z -> (-1 <= b)%Z -> Nat.max (Z.to_nat a) (Z.to_nat b) = Z.to_nat (Z.max a b).
Proof. lia. Qed.
Lemma minus_one_le r : (-1 <= or_minus_one r)%Z.
Proof. destruct r; cbn; lia. Qed.
Lemma in_html_iff it : in_html it = true <-> html_element it.
Proof. unfold in_html, html_element. destruct (i_ns it) as [s|]; [|intuition]. rewrite str_eqb_eq. split; [intros ->; auto|intros [H|H]; [discriminate H|congruence]]. Qed.
Lemma is_marker_iff it : is_marker it = true <-> marker it.
Proof. unfold is_marker, marker, parser_only_ns. destruct (i_ns it) as [s|]; [|split; discriminate]. rewrite str_eqb_eq. split; [intros ->; reflexivity|congruence]. Qed.
Lemma marker_not_html it : is_marker it = true -> in_html it = false.
Proof. unfold is_marker, in_html, parser_only_ns. destruct (i_ns it) as [s|]; [|discriminate]. intros H. apply str_eqb_eq in H. subst s. reflexivity. Qed.
Lemma in_ns_iff ns it : in_ns ns it = true <-> i_ns it = Some (u ns).
Proof. unfold in_ns. destruct (i_ns it) as [s|]; [|split; discriminate]. rewrite str_eqb_eq. split; congruence. Qed.
Lemma key_in_iff it l : key_in it l = true <-> exists ns n, In (ns, n) l /\ i_ns it = Some ns /\ i_name it = n.
Proof.
  unfold key_in. rewrite existsb_exists. split.
  - intros ([ns n] & I & H). destruct (i_ns it) as [s|]; [|discriminate H]. apply andb_true_iff in H as [A B]. cbn [fst snd] in *. apply str_eqb_eq in A, B. exists ns, n. split; [exact I|]. split; congruence.
  - intros (ns & n & I & -> & ->). exists (ns, n). split; [exact I|]. cbn [fst snd]. rewrite !str_eqb_refl. reflexivity.
Qed.
Lemma encoding_iff attrs : encoding_boundary attrs = true <-> exists a k v b, attrs = a ++ (k, Some v) :: b /\ lower k = u "encoding" /\ (forall k' v', In (k', v') a -> lower k' <> u "encoding") /\ In (lower v) [u "text/html"; u "application/xhtml+xml"].
Proof.
  induction attrs as [|[k v] attrs IH]; cbn [encoding_boundary].
  - split; [discriminate|]. intros (a & k & v & b & E & _). destruct a; discriminate E.
  - destruct (str_eqb (lower k) (u "encoding")) eqn:Ek.
    + apply str_eqb_eq in Ek. split.
      * intros H. destruct v as [v|]; [|discriminate H]. exists [], k, v, attrs. split; [reflexivity|]. split; [exact Ek|]. split; [intros k' v' []|]. apply in_strs_In in H. cbn [In] in *. tauto.
      * intros (a & k' & v' & b & E & E2 & E3 & E4). destruct a as [|[k0 v0] a].
        -- cbn [app] in E. assert (v = Some v') as -> by congruence. apply in_strs_In. cbn [In] in *. tauto.
        -- exfalso. cbn [app] in E. assert (k0 = k) as -> by congruence. apply (E3 k v0); [left; reflexivity|exact Ek].
    + rewrite IH. assert (Nk : lower k <> u "encoding") by (intros Q; rewrite Q, str_eqb_refl in Ek; discriminate Ek). split.
      * intros (a & k' & v' & b & -> & E2 & E3 & E4). exists ((k, v) :: a), k', v', b. split; [reflexivity|]. split; [exact E2|]. split; [|exact E4]. intros k0 v0 [I|I]; [assert (k0 = k) as -> by congruence; exact Nk|exact (E3 _ _ I)].
      * intros (a & k' & v' & b & E & E2 & E3 & E4). destruct a as [|[k0 v0] a]; cbn [app] in E; [exfalso; apply Nk; congruence|]. exists a, k', v', b. split; [congruence|]. split; [exact E2|]. split; [|exact E4]. intros k1 v1 I. apply (E3 k1 v1). right. exact I.
Qed.
Lemma foreign_iff it : foreign_boundary it = true <-> integration_point it.
Proof.
  unfold foreign_boundary, is_foreign_boundary, integration_point. destruct (in_ns "math" it) eqn:Em.
  - pose proof Em as Em'. apply in_ns_iff in Em'. assert (H1 : in_html it = false) by (unfold in_html; rewrite Em'; reflexivity). assert (H2 : is_marker it = false) by (unfold is_marker; rewrite Em'; reflexivity). rewrite H1, H2. cbn [negb andb].
    destruct (str_eqb (i_name it) (u "annotation-xml")) eqn:En; cbn [andb].
    + apply str_eqb_eq in En. rewrite encoding_iff. split.
      * intros H. right. right. split; [exact Em'|]. split; [exact En|exact H].
      * intros [[A _]|[[_ A]|(_ & _ & A)]]; [exfalso; rewrite Em' in A; discriminate A| |exact A]. rewrite En in A. cbn [In] in A. repeat (destruct A as [A|A]; [discriminate A|]). destruct A.
    + assert (Nn : i_name it <> u "annotation-xml") by (intros Q; rewrite Q, str_eqb_refl in En; discriminate En). rewrite orb_true_iff, !key_in_iff. split.
      * intros [(ns & n & I & A & B)|(ns & n & I & A & B)].
        -- exfalso. destruct I as [I|I]; [apply Nn; rewrite B; exact (eq_sym (f_equal snd I))|]. change (In (ns, n) (map (pair (u "svg")) [u "foreignObject"; u "desc"; u "title"])) in I. apply in_map_iff in I as (n' & Q & _). rewrite Em' in A. assert (Q' : ns = u "svg") by exact (eq_sym (f_equal fst Q)). rewrite Q' in A. discriminate A.
        -- right. left. split; [exact Em'|]. rewrite B. change (In (ns, n) (map (pair (u "math")) [u "mi"; u "mo"; u "mn"; u "ms"; u "mtext"])) in I. apply in_map_iff in I as (n' & Q & I). assert (Q' : n = n') by exact (eq_sym (f_equal snd Q)). rewrite Q'. exact I.
      * intros [[A _]|[[_ A]|(_ & A & _)]]; [exfalso; rewrite Em' in A; discriminate A| |contradiction]. right. exists (u "math"), (i_name it). split; [|split; [exact Em'|reflexivity]]. unfold mathml_text_integration_point_set. change [(u "math", u "mi"); (u "math", u "mo"); (u "math", u "mn"); (u "math", u "ms"); (u "math", u "mtext")] with (map (pair (u "math")) [u "mi"; u "mo"; u "mn"; u "ms"; u "mtext"]). apply in_map. exact A.
  - assert (Nm : i_ns it <> Some (u "math")) by (rewrite <- in_ns_iff; congruence). cbn [andb]. rewrite orb_false_r, !andb_true_iff, !negb_true_iff, key_in_iff. split.
    + intros [_ (ns & n & I & A & B)]. left. destruct I as [I|I]; [exfalso; apply Nm; rewrite A; f_equal; exact (eq_sym (f_equal fst I))|]. change (In (ns, n) (map (pair (u "svg")) [u "foreignObject"; u "desc"; u "title"])) in I. apply in_map_iff in I as (n' & Q & I). split; [rewrite A; f_equal; exact (eq_sym (f_equal fst Q))|]. assert (Q' : n = n') by exact (eq_sym (f_equal snd Q)). rewrite B, Q'. exact I.
    + intros [[A B]|[[A _]|(A & _)]]; [|contradiction|contradiction]. split; [unfold in_html, is_marker; rewrite A; split; reflexivity|]. exists (u "svg"), (i_name it). split; [|split; [exact A|reflexivity]]. right. change (In (u "svg", i_name it) (map (pair (u "svg")) [u "foreignObject"; u "desc"; u "title"])). apply in_map. exact B.
Qed.

(* ---------- one dictionary ---------- *)
Definition keyed (P : str -> item -> bool) (d : dict) (l : list item) : Prop := d_ok d /\ forall n, d_bucket n d = sel (P n) (num 0 l).
Lemma keyed_top P d l n : keyed P d l -> highest (fun it => P n it = true) l (or_minus_one (top (d_bucket n d))).
Proof. intros [_ H]. rewrite H. apply highest_top. Qed.
Lemma highest_ge P l z : highest P l z -> (-1 <= z)%Z.
Proof. intros [[-> _]|(i & x & -> & _)]; lia. Qed.
Lemma bucket_max n d best : (-1 <= best)%Z -> match d_get n d with Some l => match top l with Some i => Z.max best (Z.of_nat i) | None => best end | None => best end = Z.max best (or_minus_one (top (d_bucket n d))).
Proof. intros L. unfold d_bucket. destruct (d_get n d) as [l|]; [|cbn; lia]. destruct (top l); cbn; lia. Qed.
Lemma max_of_names_spec P d l names : keyed P d l -> forall Q best, highest Q l best -> highest (fun it => Q it \/ exists n, In n names /\ P n it = true) l (max_of_names names d best).
Proof.
  intros K. induction names as [|n names IH]; intros Q best H; cbn [max_of_names].
  - eapply highest_ext; [|exact H]. intros i it _. split; [auto|]. intros [A|(n & [] & _)]; exact A.
  - rewrite bucket_max by (eapply highest_ge; exact H). eapply highest_ext; [|apply IH; apply (highest_or _ _ _ _ _ H (keyed_top P d l n K))]. intros i it _. cbn beta. split.
    + intros [[A|A]|(m & I & A)]; [left; exact A|right; exists n; split; [left; reflexivity|exact A]|right; exists m; split; [right; exact I|exact A]].
    + intros [A|(m & [<-|I] & A)]; [left; left; exact A|left; right; exact A|right; exists m; split; [exact I|exact A]].
Qed.
Lemma best_is_max names d : forall best, best_of_names names d best = max_of_names names d best.
Proof.
  induction names as [|n names IH]; intros best; [reflexivity|]. cbn [best_of_names max_of_names]. rewrite IH. f_equal. destruct (d_get n d) as [l|]; [|reflexivity]. destruct (top l); [|reflexivity]. destruct (Z.ltb_spec best (Z.of_nat n0)); lia.
Qed.
Lemma walk_spec P l (ok : str -> bool) : forall (e : dict) Q best, (forall n b, In (n, b) e -> b <> [] /\ b = sel (P n) (num 0 l)) -> highest Q l best ->
  exists z, (fix go (d : dict) (best : Z) : option Z := match d with [] => Some best | (n, b) :: t => match top b with None => None | Some i => go t (if ok n then Z.max best (Z.of_nat i) else best) end end) e best = Some z
    /\ highest (fun it => Q it \/ exists n, In n (map fst e) /\ ok n = true /\ P n it = true) l z.
Proof.
  induction e as [|[n b] e IH]; intros Q best He H.
  - exists best. split; [reflexivity|]. eapply highest_ext; [|exact H]. intros i it _. split; [auto|]. intros [A|(n & [] & _)]; exact A.
  - destruct (He n b (or_introl eq_refl)) as [Nb Eb]. pose proof (highest_top (P n) l) as T. rewrite <- Eb in T. destruct (top b) as [i|] eqn:Et; [|apply top_none in Et; contradiction]. cbn [or_minus_one] in T.
    destruct (ok n) eqn:Eo.
    + destruct (IH _ _ (fun n b I => He n b (or_intror I)) (highest_or _ _ _ _ _ H T)) as (z & Ez & Hz). exists z. split; [exact Ez|]. eapply highest_ext; [|exact Hz]. intros j it _. cbn beta. cbn [map fst In]. split.
      * intros [[A|A]|(m & I & A & B)]; [left; exact A|right; exists n; auto|right; exists m; auto].
      * intros [A|(m & [<-|I] & A & B)]; [auto|auto|right; exists m; auto].
    + destruct (IH _ _ (fun n b I => He n b (or_intror I)) H) as (z & Ez & Hz). exists z. split; [exact Ez|]. eapply highest_ext; [|exact Hz]. intros j it _. cbn beta. cbn [map fst In]. split.
      * intros [A|(m & I & A & B)]; [left; exact A|right; exists m; auto].
      * intros [A|(m & [<-|I] & A & B)]; [auto|congruence|right; exists m; auto].
Qed.
Lemma keyed_walk P d l : keyed P d l -> forall n b, In (n, b) d -> b <> [] /\ b = sel (P n) (num 0 l).
Proof. intros [[K1 K2] K3] n b I. split; [exact (K2 _ _ I)|]. rewrite <- K3. unfold d_bucket. rewrite (in_get n d b K1 I). reflexivity. Qed.
Lemma num_in_iff l i it : nth_error l i = Some it -> In (i, it) (num 0 l).
Proof. intros H. apply num_in. rewrite Nat.sub_0_r. split; [lia|exact H]. Qed.
Lemma keyed_has P d l i it n : keyed P d l -> nth_error l i = Some it -> P n it = true -> In n (map fst d).
Proof.
  intros [K1 K2] Ni Hp. assert (I : In i (sel (P n) (num 0 l))) by (unfold sel; apply in_map_iff; exists (i, it); split; [reflexivity|]; apply filter_In; split; [apply num_in_iff; exact Ni|exact Hp]).
  rewrite <- K2 in I. unfold d_bucket in I. destruct (d_get n d) as [b|] eqn:E; [|destruct I]. apply get_in in E. apply in_map_iff. exists (n, b). split; [reflexivity|exact E].
Qed.
Lemma best_of_items_walk names d : forall best, best_of_items names d best = (fix go (d : dict) (best : Z) : option Z := match d with [] => Some best | (n, b) :: t => match top b with None => None | Some i => go t (if in_strs n names then Z.max best (Z.of_nat i) else best) end end) d best.
Proof.
  induction d as [|[n b] d IH]; intros best; [reflexivity|]. cbn [best_of_items]. destruct (top b) as [i|]; [|reflexivity]. rewrite IH. f_equal. destruct (in_strs n names); [|rewrite andb_false_r; reflexivity]. rewrite andb_true_r. destruct (Z.ltb_spec best (Z.of_nat i)); lia.
Qed.
Lemma max_top_walk d : forall best, max_top d best = (fix go (d : dict) (best : Z) : option Z := match d with [] => Some best | (n, b) :: t => match top b with None => None | Some i => go t (if true then Z.max best (Z.of_nat i) else best) end end) d best.
Proof. induction d as [|[n b] d IH]; intros best; [reflexivity|]. cbn [max_top]. destruct (top b) as [i|]; [|reflexivity]. rewrite IH. reflexivity. Qed.
Lemma none_before l : highest (fun _ => False) l (-1).
Proof. left. split; [reflexivity|]. intros j it _ []. Qed.
Lemma best_of_items_spec P d l names : keyed P d l -> exists z, best_of_items names d (-1) = Some z /\ highest (fun it => exists n, In n names /\ P n it = true) l z.
Proof.
  intros K. rewrite best_of_items_walk. destruct (walk_spec P l (fun n => in_strs n names) d _ _ (keyed_walk _ _ _ K) (none_before l)) as (z & Ez & Hz). exists z. split; [exact Ez|]. eapply highest_ext; [|exact Hz]. intros i it Ni. cbn beta. split.
  - intros [[]|(n & I & A & B)]. exists n. split; [apply in_strs_In; exact A|exact B].
  - intros (n & I & A). right. exists n. split; [exact (keyed_has _ _ _ _ _ _ K Ni A)|]. split; [apply in_strs_In; exact I|exact A].
Qed.
Lemma max_top_spec P d l : keyed P d l -> exists z, max_top d (-1) = Some z /\ highest (fun it => exists n, P n it = true) l z.
Proof.
  intros K. rewrite max_top_walk. destruct (walk_spec P l (fun n => true) d _ _ (keyed_walk _ _ _ K) (none_before l)) as (z & Ez & Hz). exists z. split; [exact Ez|]. eapply highest_ext; [|exact Hz]. intros i it Ni. cbn beta. split.
  - intros [[]|(n & I & A & B)]. exists n. exact B.
  - intros (n & A). right. exists n. split; [exact (keyed_has _ _ _ _ _ _ K Ni A)|]. split; [reflexivity|exact A].
Qed.

(* ---------- the lookups ---------- *)
Section Lookups.
Variable s : stack.
Hypothesis G : good s.
Let l := items s.
Lemma keyed_html x : ix s = Some x -> keyed named_html (x_html x) l.
Proof. intros E. destruct (g_ix s G x E). split; assumption. Qed.
Lemma keyed_other x : ix s = Some x -> keyed named_other (x_other x) l.
Proof. intros E. destruct (g_ix s G x E). split; assumption. Qed.
Lemma nh_iff n it : named_html n it = true <-> html_element it /\ i_name it = n.
Proof. unfold named_html. rewrite andb_true_iff, in_html_iff, str_eqb_eq. reflexivity. Qed.
Lemma no_iff n it : named_other n it = true <-> ~ html_element it /\ i_name it = n.
Proof. unfold named_other. rewrite andb_true_iff, negb_true_iff, str_eqb_eq, <- in_html_iff, not_true_iff_false. reflexivity. Qed.
Lemma html_dec it : html_element it \/ ~ html_element it.
Proof. rewrite <- in_html_iff. destruct (in_html it); [left; reflexivity|right; discriminate]. Qed.

Theorem last_index_of_ok name : topmost (fun it => i_name it = name) l (last_index_of name s).
Proof.
  unfold last_index_of. destruct (ix s) as [x|] eqn:E.
  - pose proof (keyed_html x E) as K1. pose proof (keyed_other x E) as K2. rewrite (get_top (named_html name) name _ l (proj1 K1) (proj2 K1 name)), (get_top (named_other name) name _ l (proj1 K2) (proj2 K2 name)). rewrite max_to_nat by apply minus_one_le.
    apply topmost_or_none. eapply highest_ext; [|apply highest_or; apply highest_top]. intros i it _. cbn beta. rewrite nh_iff, no_iff. destruct (html_dec it); tauto.
  - eapply topmost_ext; [|apply scan_spec]. intros it. cbn beta. apply str_eqb_eq.
Qed.
Theorem last_html_index_of_ok name (po : bool) : topmost (fun it => i_name it = name /\ (html_element it \/ (po = true /\ marker it))) l (last_html_index_of name po s).
Proof.
  unfold last_html_index_of. destruct (ix s) as [x|] eqn:E.
  - pose proof (keyed_html x E) as K1. pose proof (keyed_other x E) as K2. rewrite (get_top (named_html name) name _ l (proj1 K1) (proj2 K1 name)). destruct po.
    + assert (Q : match d_get name (x_other x) with Some other => match last_where is_marker (items s) (rev other) with Some i => Nat.max (Z.to_nat (or_minus_one (top (sel (named_html name) (num 0 l))))) i | None => Z.to_nat (or_minus_one (top (sel (named_html name) (num 0 l)))) end | None => Z.to_nat (or_minus_one (top (sel (named_html name) (num 0 l)))) end
        = Z.to_nat (Z.max (or_minus_one (top (sel (named_html name) (num 0 l)))) (or_minus_one (top (sel (fun it => named_other name it && is_marker it) (num 0 l)))))).
      { rewrite (bucket_get _ _ (proj1 K2)), (proj2 K2 name). rewrite <- (last_where_spec (named_other name) is_marker l (num 0 l) (fun i it => num_nth l i it)). change (items s) with l. destruct (sel (named_other name) (num 0 l)) as [|j t]; [cbn [rev last_where or_minus_one]; pose proof (minus_one_le (top (sel (named_html name) (num 0 l)))); lia|].
        destruct (last_where is_marker l (rev (j :: t))) as [i|]; cbn [or_minus_one]; [lia|]. pose proof (minus_one_le (top (sel (named_html name) (num 0 l)))). lia. }
      rewrite Q. apply topmost_or_none. eapply highest_ext; [|apply highest_or; apply highest_top]. intros i it _. cbn beta. rewrite andb_true_iff, nh_iff, no_iff, is_marker_iff. split.
      * intros [[A B]|[[A B] C]]; auto.
      * intros [A [B|[_ B]]]; [auto|]. right. split; [|exact B]. split; [|exact A]. intros H. apply is_marker_iff, marker_not_html in B. apply in_html_iff in H. congruence.
    + apply topmost_or_none. eapply highest_ext; [|apply highest_top]. intros i it _. cbn beta. rewrite nh_iff. split; [intros [A B]; auto|]. intros [A [B|[B _]]]; [auto|discriminate B].
  - eapply topmost_ext; [|apply scan_spec]. intros it. cbn beta. rewrite andb_true_iff, orb_true_iff, andb_true_iff, str_eqb_eq, in_html_iff, is_marker_iff. reflexivity.
Qed.
Definition html_named (names : list str) (it : item) : Prop := html_element it /\ In (i_name it) names.
Lemma html_any_highest names x : ix s = Some x -> exists z, last_html_index_of_any names s = Some z /\ highest (html_named names) l z.
Proof.
  intros E. unfold last_html_index_of_any. rewrite E. pose proof (keyed_html x E) as K.
  assert (X : forall it, (exists n, In n names /\ named_html n it = true) <-> html_named names it).
  { intros it. unfold html_named. split; [intros (n & I & A); apply nh_iff in A as [A <-]; auto|]. intros [A I]. exists (i_name it). split; [exact I|]. apply nh_iff. auto. }
  destruct (_ <? _)%nat.
  - destruct (best_of_items_spec _ _ _ names K) as (z & Ez & Hz). exists z. split; [exact Ez|]. eapply highest_ext; [|exact Hz]. intros i it _. apply X.
  - eexists. split; [reflexivity|]. rewrite best_is_max. eapply highest_ext; [|apply (max_of_names_spec _ _ _ names K _ _ (none_before l))]. intros i it _. cbn beta. rewrite <- X. tauto.
Qed.
Theorem last_html_index_of_any_ok names : not_bottom (html_named names) l -> exists r, last_html_index_of_any names s = Some (or_minus1 r) /\ topmost (html_named names) l r.
Proof.
  intros B. destruct (ix s) as [x|] eqn:E.
  - destruct (html_any_highest names x E) as (z & Ez & Hz). destruct (topmost_minus _ _ _ Hz B) as (r & -> & T). exists r. split; [exact Ez|exact T].
  - unfold last_html_index_of_any. rewrite E. eexists. split; [reflexivity|]. eapply topmost_ext; [|apply scan_spec]. intros it. cbn beta. rewrite andb_true_iff, in_html_iff, in_strs_In. reflexivity.
Qed.
Theorem last_html_index_ok : exists r, last_html_index s = Some (or_minus1 r) /\ topmost html_element l r.
Proof.
  unfold last_html_index. destruct (ix s) as [x|] eqn:E.
  - destruct (max_top_spec _ _ _ (keyed_html x E)) as (z & -> & Hz). cbn [option_map]. assert (Hz' : highest html_element l z).
    { eapply highest_ext; [|exact Hz]. intros i it _. cbn beta. split; [intros (n & A); apply nh_iff in A as [A _]; exact A|]. intros A. exists (i_name it). apply nh_iff. auto. }
    exists (if (0 <? z)%Z then Some (Z.to_nat z) else None). split; [|apply topmost_pos; exact Hz']. f_equal. destruct (Z.ltb_spec 0 z); cbn [or_minus1]; [lia|reflexivity].
  - eexists. split; [reflexivity|]. eapply topmost_ext; [|apply scan_spec]. intros it. apply in_html_iff.
Qed.
Theorem last_index_of_any_ok names : topmost (fun it => In (i_name it) names) l (last_index_of_any names s).
Proof.
  unfold last_index_of_any. destruct (ix s) as [x|] eqn:E.
  - cbv zeta. apply topmost_pos. eapply highest_ext; [|apply (max_of_names_spec _ _ _ names (keyed_other x E) _ _ (max_of_names_spec _ _ _ names (keyed_html x E) _ _ (none_before l)))]. intros i it _. cbn beta. split.
    + intros [[[]|(n & I & A)]|(n & I & A)]; [apply nh_iff in A as [_ <-]|apply no_iff in A as [_ <-]]; exact I.
    + intros I. destruct (html_dec it) as [H|H]; [left; right|right]; exists (i_name it); (split; [exact I|]); [apply nh_iff|apply no_iff]; auto.
  - eapply topmost_ext; [|apply scan_spec]. intros it. apply in_strs_In.
Qed.
Lemma foreign_highest x : ix s = Some x -> highest integration_point l (last_foreign_boundary_index s).
Proof.
  intros E. unfold last_foreign_boundary_index. rewrite E. rewrite (r_foreign _ _ (g_ix s G x E)). eapply highest_ext; [|apply highest_top]. intros i it _. apply foreign_iff.
Qed.
Theorem last_foreign_boundary_index_ok : not_bottom integration_point l -> exists r, last_foreign_boundary_index s = or_minus1 r /\ topmost integration_point l r.
Proof.
  intros B. destruct (ix s) as [x|] eqn:E.
  - exact (topmost_minus _ _ _ (foreign_highest x E) B).
  - unfold last_foreign_boundary_index. rewrite E. eexists. split; [reflexivity|]. eapply topmost_ext; [|apply scan_spec]. intros it. apply foreign_iff.
Qed.
Lemma ip_not_html it : integration_point it -> ~ html_element it /\ ~ marker it.
Proof. rewrite <- foreign_iff, <- in_html_iff, <- is_marker_iff. unfold foreign_boundary. destruct (in_html it), (is_marker it); try discriminate. split; discriminate. Qed.
Theorem last_scope_boundary_index_ok names : not_bottom (fun it => html_named names it \/ integration_point it) l -> exists r, last_scope_boundary_index names s = Some (or_minus1 r) /\ topmost (fun it => html_named names it \/ integration_point it) l r.
Proof.
  intros B. unfold last_scope_boundary_index. destruct (ix s) as [x|] eqn:E.
  - destruct (html_any_highest names x E) as (z & -> & Hz). cbn [option_map]. destruct (topmost_minus _ _ _ (highest_or _ _ _ _ _ Hz (foreign_highest x E)) B) as (r & -> & T). exists r. split; [reflexivity|exact T].
  - eexists. split; [reflexivity|]. eapply topmost_ext; [|apply scan_spec]. intros it. cbn beta. unfold html_named. rewrite <- in_html_iff, <- in_strs_In. split.
    + destruct (in_html it) eqn:H; [auto|]. intros A. right. apply foreign_iff. unfold foreign_boundary. rewrite H. exact A.
    + intros [[A C]|A]; [rewrite A; exact C|]. apply foreign_iff in A. unfold foreign_boundary in A. destruct (in_html it); [discriminate A|exact A].
Qed.
Theorem last_rendered_index_ok : topmost (fun it => ~ marker it) l (last_rendered_index s).
Proof.
  assert (X : forall it, negb (is_marker it) = true <-> ~ marker it) by (intros it; rewrite <- is_marker_iff; destruct (is_marker it); split; try discriminate; try reflexivity; intros H; destruct (H eq_refl)).
  unfold last_rendered_index. destruct (ix s) as [x|] eqn:E.
  - rewrite (r_rendered _ _ (g_ix s G x E)). pose proof (highest_top (fun it => negb (is_marker it)) l) as H. apply (highest_ext _ (fun it => ~ marker it)) in H; [|intros i it _; apply X]. apply topmost_or_none in H. change (items s) with l. destruct (top _); cbn [or_minus_one] in H; [rewrite Nat2Z.id in H|]; exact H.
  - eapply topmost_ext; [|apply scan_spec]. exact X.
Qed.
Lemma marker_no_html it : marker it -> ~ html_element it.
Proof. rewrite <- is_marker_iff, <- in_html_iff. intros H. rewrite (marker_not_html it H). discriminate. Qed.
Theorem last_template_boundary_index_ok : not_bottom template l -> exists r, last_template_boundary_index s = or_minus1 r /\ topmost template l r.
Proof.
  intros B. unfold last_template_boundary_index. destruct (ix s) as [x|] eqn:E.
  - pose proof (keyed_html x E) as K1. pose proof (keyed_other x E) as K2. cbv zeta. change (items s) with l.
    assert (Q1 : match d_get (u "template") (x_html x) with Some b => or_minus_one (last_where i_template l (rev b)) | None => (-1)%Z end = or_minus_one (top (sel (fun it => named_html (u "template") it && i_template it) (num 0 l)))).
    { rewrite (bucket_get _ _ (proj1 K1)), (proj2 K1 _). rewrite <- (last_where_spec (named_html (u "template")) i_template l (num 0 l) (fun i it => num_nth l i it)). destruct (sel _ (num 0 l)); reflexivity. }
    rewrite Q1. clear Q1.
    assert (Q2 : match d_get (u "template") (x_other x) with Some b => match last_where is_marker l (rev b) with Some i => Z.max (or_minus_one (top (sel (fun it => named_html (u "template") it && i_template it) (num 0 l)))) (Z.of_nat i) | None => or_minus_one (top (sel (fun it => named_html (u "template") it && i_template it) (num 0 l))) end | None => or_minus_one (top (sel (fun it => named_html (u "template") it && i_template it) (num 0 l))) end
      = Z.max (or_minus_one (top (sel (fun it => named_html (u "template") it && i_template it) (num 0 l)))) (or_minus_one (top (sel (fun it => named_other (u "template") it && is_marker it) (num 0 l))))).
    { rewrite (bucket_get _ _ (proj1 K2)), (proj2 K2 _). rewrite <- (last_where_spec (named_other (u "template")) is_marker l (num 0 l) (fun i it => num_nth l i it)). pose proof (minus_one_le (top (sel (fun it => named_html (u "template") it && i_template it) (num 0 l)))) as L.
      destruct (sel (named_other _) (num 0 l)) as [|j t]; [cbn [rev last_where or_minus_one]; lia|]. destruct (last_where is_marker l (rev (j :: t))); cbn [or_minus_one]; lia. }
    rewrite Q2. clear Q2. apply topmost_minus; [|exact B]. eapply highest_ext; [|apply highest_or; apply highest_top]. intros i it _. cbn beta. unfold template. rewrite !andb_true_iff, nh_iff, no_iff, is_marker_iff. split.
    + intros [[[A1 A2] A3]|[[A1 A2] A3]]; auto.
    + intros [A [C|[C D]]]; [|auto]. right. split; [split; [apply marker_no_html; exact C|exact A]|exact C].
  - eexists. split; [reflexivity|]. eapply topmost_ext; [|apply scan_spec]. intros it. cbn beta. unfold template. rewrite andb_true_iff, orb_true_iff, andb_true_iff, str_eqb_eq, in_html_iff, is_marker_iff. reflexivity.
Qed.
Theorem contains_node_ok it : contains_node it s = true <-> exists y, In y l /\ i_id y = i_id it.
Proof.
  unfold contains_node. destruct (ix s) as [x|] eqn:E.
  - pose proof (r_nodes _ _ (g_ix s G x E) (i_id it)) as H. destruct (n_get (i_id it) (x_nodes x)) as [i|] eqn:F.
    + split; [intros _|reflexivity]. destruct (proj1 (H i) eq_refl) as (y & I & Q). exists y. split; [|exact Q]. apply num_nth in I. apply nth_error_In in I. exact I.
    + split; [discriminate|]. intros (y & I & Q). exfalso. apply In_nth_error in I as (i & I). assert (K : None = Some i) by (apply H; exists y; split; [apply num_in_iff; exact I|exact Q]). discriminate K.
  - rewrite existsb_exists. split; intros (y & I & Q); exists y; (split; [exact I|apply N.eqb_eq; exact Q]).
Qed.
Theorem index_of_node_ok it : match index_of_node it s with
  | Some i => exists y, nth_error l i = Some y /\ i_id y = i_id it
  | None => forall y, In y l -> i_id y <> i_id it
  end.
Proof.
  rewrite (index_spec it s G). change (items s) with l. pose proof (without_first_spec it l) as W. destruct (list_index it l) as [k|] eqn:E.
  - destruct W as (y & E1 & L & E3 & _). exists y. split; [|exact E3]. rewrite E1. rewrite nth_error_app2 by (rewrite firstn_length; lia). rewrite firstn_length, Nat.min_l, Nat.sub_diag by lia. reflexivity.
  - clear W. induction l as [|z m IH]; intros y I Q; [destruct I|]. cbn [list_index] in E. destruct (N.eqb_spec (i_id z) (i_id it)); [discriminate E|]. destruct I as [->|I]; [congruence|]. destruct (list_index it m); [discriminate E|]. exact (IH eq_refl y I Q).
Qed.
Lemma sel_len P E : List.length (sel P E) = List.length (filter P (map snd E)).
Proof. unfold sel. rewrite map_length. induction E as [|[i it] E IH]; [reflexivity|]. cbn [filter map snd]. destruct (P it); cbn [List.length]; [f_equal|]; exact IH. Qed.
Lemma num_snd m : forall k, map snd (num k m) = m.
Proof. induction m as [|y m IH]; intros k; [reflexivity|]. cbn [num map snd]. rewrite IH. reflexivity. Qed.
Theorem count_of_ok name : count_of name s = Z.of_nat (List.length (filter (fun it => str_eqb (i_name it) name) l)).
Proof.
  unfold count_of. destruct (str_eqb name (u "p")) eqn:Ep.
  - apply str_eqb_eq in Ep. subst name. apply (g_p s G).
  - destruct (ix s) as [x|] eqn:E.
    + rewrite (proj2 (keyed_html x E) name), (proj2 (keyed_other x E) name), !sel_len, !num_snd. induction l as [|y m IH]; [reflexivity|]. cbn [filter]. unfold named_html, named_other in *. destruct (in_html y), (str_eqb (i_name y) name); cbn [negb andb List.length] in *; lia.
    + change (items s) with l. assert (Hg : forall m n, fold_left (fun n it => (n + one_if (str_eqb (i_name it) name))%Z) m n = (n + Z.of_nat (List.length (filter (fun it => str_eqb (i_name it) name) m)))%Z).
      { induction m as [|y m IH]; intros n; cbn [fold_left filter List.length]; [lia|]. rewrite IH. unfold one_if. destruct (str_eqb (i_name y) name); cbn [List.length]; lia. }
      rewrite Hg. lia.
Qed.
End Lookups.
