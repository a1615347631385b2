(* PROOFS: globs *)
From Coq Require Import Lia ZifyBool ZifyN ZifyNat.
From Verif Require Import Str StrFacts MiscModel MiscSpec.
Open Scope N_scope.

Definition stop (st : str) (sp : str) : Prop := forall x y, st = x ++ y -> ~ glob sp y.
Lemma loop_sound f : forall p t star, glob_loop f p t star = Some true ->
  glob p t \/ exists sp st x y, star = Some (sp, st) /\ st = x ++ y /\ glob sp y.
Proof.
  induction f as [|f IH]; intros p t star H; [discriminate H|]. cbn [glob_loop] in H. destruct t as [|c t].
  - left. clear IH. induction p as [|x p IHp]; [constructor|]. cbn [drop_while] in H. destruct (x =? 42) eqn:E; [|discriminate H]. apply N.eqb_eq in E as ->. apply (G_star [] p []). apply IHp. exact H.
  - assert (B : match star with Some (sp, _ :: st) => glob_loop f sp st (Some (sp, st)) | _ => Some false end = Some true ->
                exists sp st x y, star = Some (sp, st) /\ st = x ++ y /\ glob sp y).
    { clear H. intros H. destruct star as [[sp [|d st]]|]; try discriminate H. apply IH in H as [H|(sp' & st' & x & y & E & E2 & G)].
      - exists sp, (d :: st), [d], st. repeat split; try reflexivity. exact H.
      - injection E as <- <-. exists sp, (d :: st), (d :: x), y. repeat split; [rewrite E2; reflexivity|exact G]. }
    destruct p as [|x p]; [right; apply B; exact H|].
    destruct ((x =? 63) || (x =? c)) eqn:E1.
    + apply IH in H as [H|H]; [left|right; exact H].
      destruct (N.eqb_spec x 63) as [->|N1]; [apply G_any; exact H|]. assert (x = c) as -> by lia. destruct (N.eqb_spec c 42) as [->|N2]; [apply (G_star [42] p t); exact H|]. apply G_char; assumption.
    + destruct (x =? 42) eqn:E2; [|right; apply B; exact H]. apply N.eqb_eq in E2 as ->. left. apply IH in H as [H|(sp' & st' & x & y & E & E3 & G)]; [apply (G_star [] p (c :: t)); exact H|].
      injection E as <- <-. rewrite E3. apply G_star. exact G.
Qed.
(* w, free of stars, matches v character by character *)
Inductive lit : str -> str -> Prop :=
| L_nil : lit [] []
| L_cons x w c v : x <> 42 -> (x = 63 \/ x = c) -> lit w v -> lit (x :: w) (c :: v).
Lemma lit_snoc w v x c : lit w v -> x <> 42 -> (x = 63 \/ x = c) -> lit (w ++ [x]) (v ++ [c]).
Proof. intros H N0 X. induction H; cbn [app]; constructor; try assumption. constructor. Qed.
Lemma lit_length w v : lit w v -> List.length w = List.length v.
Proof. intros H. induction H; cbn [List.length]; lia. Qed.
Lemma lit_split w v p s : lit w v -> glob (w ++ p) s -> exists v' t', s = v' ++ t' /\ List.length v' = List.length w /\ glob p t'.
Proof.
  intros H. revert s. induction H as [|x w c v N0 X H IH]; intros s G; [exists [], s; repeat split; exact G|]. cbn [app] in G. inversion G; subst; try contradiction.
  - match goal with K : glob (w ++ p) _ |- _ => destruct (IH _ K) as (v' & t' & -> & L & G') end. exists (c0 :: v'), t'. cbn [List.length]. repeat split; [congruence|exact G'].
  - match goal with K : glob (w ++ p) _ |- _ => destruct (IH _ K) as (v' & t' & -> & L & G') end. exists (x :: v'), t'. cbn [List.length]. repeat split; [congruence|exact G'].
Qed.
Lemma lit_same w v p t : lit w v -> glob (w ++ p) (v ++ t) -> glob p t.
Proof.
  intros H G. destruct (lit_split _ _ _ _ H G) as (v' & t' & E & L & G'). rewrite (lit_length _ _ H) in L. assert (v = v' /\ t = t') as [_ ->]; [|exact G'].
  clear - E L. revert v' E L. induction v as [|c v IH]; intros [|d v'] E L; try discriminate L; [split; [reflexivity|exact E]|]. cbn [app] in E. injection E as -> E. destruct (IH v' E) as [-> ->]; [injection L; auto|]. split; reflexivity.
Qed.
Lemma suffix_of {A} (v t x v' t' : list A) : v ++ t = x ++ v' ++ t' -> List.length v = List.length v' -> exists z, t = z ++ t'.
Proof.
  intros E L. exists (skipn (List.length v) (x ++ v')). rewrite app_assoc in E. apply (f_equal (skipn (List.length v))) in E. rewrite skipn_app, skipn_all, Nat.sub_diag in E. cbn [app skipn] in E. rewrite E.
  rewrite skipn_app. f_equal. replace (List.length v - List.length (x ++ v'))%nat with O by (rewrite app_length; lia). reflexivity.
Qed.
Lemma loop_complete_star f : forall w v p t, lit w v -> ~ In 42 t -> ~ In 42 v -> glob_loop f p t (Some (w ++ p, v ++ t)) = Some false -> stop (v ++ t) (w ++ p).
Proof.
  induction f as [|f IH]; intros w v p t L NS NV H; [discriminate H|]. cbn [glob_loop] in H.
  assert (BT : forall c t', t = c :: t' -> ~ glob p t -> match v ++ t with [] => Some false | _ :: st => glob_loop f (w ++ p) st (Some (w ++ p, st)) end = Some false -> stop (v ++ t) (w ++ p)).
  { intros c t' -> NG B. destruct (v ++ c :: t') as [|d st] eqn:E; [destruct v; discriminate E|]. intros x y Ex G. destruct x as [|d' x].
    - cbn [app] in Ex. subst y. rewrite <- E in G. apply NG. exact (lit_same _ _ _ _ L G).
    - cbn [app] in Ex. injection Ex as <- Ex. assert (NSt : ~ In 42 st). { intros I. assert (I2 : In 42 (v ++ c :: t')) by (rewrite E; right; exact I). apply in_app_or in I2 as [|]; auto. }
      apply (IH [] [] (w ++ p) st L_nil NSt (fun q => q) B x y Ex). exact G. }
  destruct t as [|c t].
  - intros x y Ex G. destruct (lit_split _ _ _ _ L G) as (v' & t' & -> & Lv & G'). rewrite app_nil_r in Ex. assert (t' = []) as ->.
    { pose proof (lit_length _ _ L). apply (f_equal (@List.length _)) in Ex. rewrite !app_length in Ex. destruct t'; [reflexivity|cbn [List.length] in Ex; lia]. }
    clear - G' H. induction p as [|z p IHp]; [discriminate H|]. inversion G'; subst.
    + cbn [drop_while] in H. destruct x; [|match goal with K : _ :: _ = [] |- _ => discriminate K | K : (_ :: _) ++ _ = [] |- _ => discriminate K end]. cbn [app] in *. subst. rewrite N.eqb_refl in H. match goal with K : glob p [] |- _ => exact (IHp H K) end.
  - destruct p as [|x p].
    + apply (BT c t eq_refl); [intros G; inversion G|]. destruct (v ++ c :: t); exact H.
    + destruct ((x =? 63) || (x =? c)) eqn:E1.
      * assert (X : x <> 42) by (intros ->; apply NS; left; lia). assert (X2 : x = 63 \/ x = c) by lia. assert (NV' : ~ In 42 (v ++ [c])). { intros I. apply in_app_or in I as [I|[I|[]]]; [exact (NV I)|]. apply NS. left. exact I. }
        replace (w ++ x :: p) with ((w ++ [x]) ++ p) in * by (rewrite <- app_assoc; reflexivity). replace (v ++ c :: t) with ((v ++ [c]) ++ t) in * by (rewrite <- app_assoc; reflexivity).
        apply IH; [apply lit_snoc; assumption|intros I; apply NS; right; exact I|exact NV'|exact H].
      * destruct (x =? 42) eqn:E2.
        -- apply N.eqb_eq in E2 as ->. assert (ST : stop (c :: t) p) by (apply (IH [] [] p (c :: t) L_nil NS (fun q => q) H)).
           intros z y Ez G. destruct (lit_split _ _ _ _ L G) as (v' & t' & -> & Lv & G'). inversion G'; subst; [|congruence].
           rewrite app_assoc in Ez. rewrite (lit_length _ _ L) in Lv.
           rewrite <- app_assoc in Ez. destruct (suffix_of v (c :: t) z v' (x ++ t0) Ez (eq_sym Lv)) as (q & Eq). rewrite app_assoc in Eq. apply (ST _ _ Eq). assumption.
        -- apply (BT c t eq_refl); [intros G; inversion G; subst; lia|]. destruct (v ++ c :: t); exact H.
Qed.
Lemma loop_complete f : forall p t, ~ In 42 t -> glob_loop f p t None = Some false -> ~ glob p t.
Proof.
  induction f as [|f IH]; intros p t NS H G; [discriminate H|]. cbn [glob_loop] in H. destruct t as [|c t].
  - clear IH NS. induction p as [|z p IHp]; [discriminate H|]. inversion G; subst. cbn [drop_while] in H. destruct x; [|match goal with K : _ :: _ = [] |- _ => discriminate K | K : (_ :: _) ++ _ = [] |- _ => discriminate K end]. cbn [app] in *. subst. rewrite N.eqb_refl in H. match goal with K : glob p [] |- _ => exact (IHp H K) end.
  - destruct p as [|x p]; [inversion G|]. destruct ((x =? 63) || (x =? c)) eqn:E1.
    + assert (X : x <> 42) by (intros ->; apply NS; left; lia). apply (IH p t); [intros I; apply NS; right; exact I|exact H|]. inversion G; subst; [contradiction|assumption|assumption].
    + destruct (x =? 42) eqn:E2; [|inversion G; subst; lia]. apply N.eqb_eq in E2 as ->. pose proof (loop_complete_star f [] [] p (c :: t) L_nil NS (fun q => q) H) as ST. inversion G; subst; [|congruence]. match goal with K1 : ?a ++ ?b = c :: t, K2 : glob p ?b |- _ => exact (ST a b (eq_sym K1) K2) end.
Qed.
Definition stages (T : nat) (star : option (str * str)) : nat := match star with Some (_, st) => List.length st | None => S T end.
Lemma loop_total P T f : forall p t star, (List.length p <= P)%nat -> (List.length t <= T)%nat ->
  match star with Some (sp, st) => List.length sp <= P /\ List.length st <= T /\ List.length t <= List.length st | None => True end%nat ->
  (stages T star * (P + T + 2) + List.length p + List.length t < f)%nat -> exists b, glob_loop f p t star = Some b.
Proof.
  induction f as [|f IH]; intros p t star Lp Lt LS L; [lia|]. cbn [glob_loop]. destruct t as [|c t]; [eexists; reflexivity|].
  assert (B : exists b, match star with Some (sp, _ :: st) => glob_loop f sp st (Some (sp, st)) | _ => Some false end = Some b).
  { destruct star as [[sp [|d st]]|]; try (eexists; reflexivity). cbn [List.length stages] in *. apply IH; [lia|lia|lia|]. cbn [stages]. nia. }
  destruct p as [|x p]; [exact B|]. cbn [List.length] in *. destruct ((x =? 63) || (x =? c)).
  - apply IH; [lia|lia| |lia]. destruct star as [[sp st]|]; [lia|exact Logic.I].
  - destruct (x =? 42); [|exact B]. apply IH; [lia|cbn [List.length]; lia|cbn [List.length]; lia|]. cbn [stages List.length]. destruct star as [[sp st]|]; cbn [stages] in L; nia.
Qed.
Lemma glob_total p t : exists b, glob_match p t = Some b.
Proof.
  unfold glob_match. destruct (str_eqb p (u "*")); [eexists; reflexivity|]. destruct (_ && _); [eexists; reflexivity|]. apply (loop_total (List.length p) (List.length t)); [lia|lia|exact Logic.I|]. unfold glob_fuel. cbn [stages]. nia.
Qed.
Lemma glob_plain p t : ~ In 42 p -> ~ In 63 p -> (glob p t <-> p = t).
Proof.
  intros A B. split.
  - intros G. induction G; [reflexivity| | |].
    + destruct A. left. reflexivity.
    + destruct B. left. reflexivity.
    + f_equal. apply IHG; intros I; [apply A|apply B]; right; exact I.
  - intros <-. induction p as [|c p IH]; [constructor|]. apply G_char; [intros ->; apply A; left; reflexivity|intros ->; apply B; left; reflexivity|]. apply IH; intros I; [apply A|apply B]; right; exact I.
Qed.
Lemma glob_all t : glob [42] t.
Proof. rewrite <- (app_nil_r t). apply G_star. constructor. Qed.
Lemma mem_false c s : mem c s = false -> ~ In c s.
Proof. intros H I. apply mem_In in I. congruence. Qed.
Lemma match_sound p t : glob_match p t = Some true -> glob p t.
Proof.
  unfold glob_match. destruct (str_eqb p (u "*")) eqn:E; [intros _; apply str_eqb_eq in E as ->; apply glob_all|]. destruct (negb (mem 42 p) && negb (mem 63 p)) eqn:M; [apply andb_true_iff in M as [M1 M2]; apply negb_true_iff in M1, M2|].
  - intros H. assert (str_eqb p t = true) as Q by congruence. apply str_eqb_eq in Q. apply glob_plain; [apply mem_false; exact M1|apply mem_false; exact M2|exact Q].
  - intros H. apply loop_sound in H as [H|(sp & st & x & y & Q & _)]; [exact H|discriminate Q].
Qed.
Lemma match_complete p t : ~ In 42 t -> glob p t -> glob_match p t = Some true.
Proof.
  intros NS G. destruct (glob_total p t) as [[|] H]; [exact H|]. exfalso. unfold glob_match in H. destruct (str_eqb p (u "*")) eqn:E; [discriminate H|]. destruct (negb (mem 42 p) && negb (mem 63 p)) eqn:M; [apply andb_true_iff in M as [M1 M2]; apply negb_true_iff in M1, M2|].
  - apply glob_plain in G; [|apply mem_false; lia|apply mem_false; lia]. subst t. assert (str_eqb p p = false) as Q by congruence. rewrite (proj2 (str_eqb_eq p p) eq_refl) in Q. discriminate Q.
  - exact (loop_complete _ _ _ NS H G).
Qed.
(* ---------- the three default patterns ---------- *)
Lemma starts_app w s : starts w s = true <-> exists r, s = w ++ r.
Proof.
  revert s. induction w as [|c w IH]; intros s; cbn [starts]; [split; [exists s; reflexivity|reflexivity]|]. destruct s as [|d s]; [split; [discriminate|intros (r & Q); discriminate Q]|].
  rewrite andb_true_iff, IH, N.eqb_eq. split; [intros (-> & r & ->); exists r; reflexivity|intros (r & Q); cbn [app] in Q; injection Q as -> ->; split; [reflexivity|exists r; reflexivity]].
Qed.
Lemma glob_on k : glob (u "on*") k <-> exists r, k = u "on" ++ r.
Proof.
  change (u "on*") with [111; 110; 42]. change (u "on") with [111; 110]. split.
  - intros G. inversion G; subst. match goal with K : glob [110; 42] _ |- _ => inversion K; subst end. eexists. reflexivity.
  - intros (r & ->). apply G_char; [lia|lia|]. apply G_char; [lia|lia|]. apply glob_all.
Qed.
Lemma glob_colon k : glob (u "*:*") k <-> In 58 k.
Proof.
  change (u "*:*") with [42; 58; 42]. split.
  - intros G. inversion G; subst; [|congruence]. match goal with K : glob [58; 42] _ |- _ => inversion K; subst end. apply in_or_app. right. left. reflexivity.
  - intros I. apply in_split in I as (a & b & ->). apply G_star. apply G_char; [lia|lia|]. apply glob_all.
Qed.
Lemma unsafe_key_spec k : unsafe_key k = true <-> exists p, In p [u "*:*"; u "on*"; u "srcdoc"] /\ glob p k.
Proof.
  unfold unsafe_key. rewrite !orb_true_iff, starts_app, str_eqb_eq, mem_In. split.
  - intros [[H|H]|H].
    + exists (u "on*"). split; [right; left; reflexivity|]. apply glob_on. exact H.
    + exists (u "srcdoc"). split; [right; right; left; reflexivity|]. apply glob_plain; [vm_compute; intuition discriminate|vm_compute; intuition discriminate|]. symmetry. exact H.
    + exists (u "*:*"). split; [left; reflexivity|]. apply glob_colon. exact H.
  - intros (p & [<-|[<-|[<-|[]]]] & G).
    + right. apply glob_colon. exact G.
    + left. left. apply glob_on. exact G.
    + left. right. apply glob_plain in G; [congruence|vm_compute; intuition discriminate|vm_compute; intuition discriminate].
Qed.
Lemma any_match_spec ps k : ~ In 42 k -> (any_match ps k = true <-> exists p, In p ps /\ glob p k).
Proof.
  intros NS. unfold any_match. rewrite existsb_exists. split; intros (p & I & H); exists p; (split; [exact I|]).
  - apply match_sound. destruct (glob_match p k) as [[|]|]; [reflexivity|discriminate H|discriminate H].
  - rewrite match_complete by assumption. reflexivity.
Qed.
Lemma filter_id {A} (f : A -> bool) l : existsb (fun x => negb (f x)) l = false -> filter f l = l.
Proof. induction l as [|x l IH]; [reflexivity|]. cbn [existsb filter]. destruct (f x); cbn [negb orb]; [|discriminate]. intros H. rewrite IH by exact H. reflexivity. Qed.
Lemma dict_put_new {V} k (v : V) d : ~ In k (map fst d) -> dict_put k v d = d ++ [(k, v)].
Proof.
  induction d as [|[k' v'] d IH]; intros NI; [reflexivity|]. cbn [dict_put map fst app] in *. destruct (str_eqb k k') eqn:E; [apply str_eqb_eq in E; subst; destruct NI; left; reflexivity|]. rewrite IH; [reflexivity|]. intros I. apply NI. right. exact I.
Qed.
Lemma fold_put_filter {V} (drop : str -> bool) (attrs : list (str * V)) : forall acc, NoDup (map fst (acc ++ attrs)) -> (forall kv, In kv attrs -> lower (fst kv) = fst kv /\ blank (fst kv) = false) ->
  fold_left (fun out kv => if blank (fst kv) || drop (lower (fst kv)) then out else dict_put (lower (fst kv)) (snd kv) out) attrs acc = acc ++ filter (fun kv => negb (drop (lower (fst kv)))) attrs.
Proof.
  induction attrs as [|[k v] attrs IH]; intros acc ND H; cbn [fold_left filter]; [symmetry; apply app_nil_r|]. destruct (H (k, v) (or_introl eq_refl)) as [Hl Hb]. cbn [fst snd] in *. rewrite Hb, Hl. cbn [orb].
  destruct (drop k); cbn [negb].
  - apply IH; [|intros kv I; apply H; right; exact I]. rewrite map_app in *. cbn [map fst] in ND. apply NoDup_remove_1 in ND. exact ND.
  - rewrite dict_put_new.
    + replace ((acc ++ (k, v) :: filter (fun kv => negb (drop (lower (fst kv)))) attrs)%list) with ((acc ++ [(k, v)]) ++ filter (fun kv => negb (drop (lower (fst kv)))) attrs)%list by (rewrite <- app_assoc; reflexivity).
      apply IH; [rewrite <- app_assoc; exact ND|intros kv I; apply H; right; exact I].
    + rewrite map_app in ND. cbn [map fst] in ND. apply NoDup_remove_2 in ND. intros I. apply ND. apply in_or_app. left. exact I.
Qed.
Lemma default_patterns ps : forallb (fun p => str_eqb (fst p) (snd p)) (combine ps [u "*:*"; u "on*"; u "srcdoc"]) && (List.length ps =? 3)%nat = true -> ps = [u "*:*"; u "on*"; u "srcdoc"].
Proof.
  destruct ps as [|a [|b [|c [|d ps]]]]; cbn [List.length Nat.eqb]; rewrite ?andb_false_r; try discriminate. intros H. cbn [combine forallb fst snd] in H. rewrite !andb_true_iff, !str_eqb_eq in H. destruct H as [(-> & -> & -> & _) _]. reflexivity.
Qed.
Definition after_drop {V} (ps : list str) (attrs : list (str * V)) : list (str * V) := match drop_attrs ps attrs with Some r => r | None => attrs end.
Lemma drop_filter {V} ps (attrs : list (str * V)) : NoDup (map fst attrs) -> (forall kv, In kv attrs -> lower (fst kv) = fst kv /\ blank (fst kv) = false /\ ~ In 42 (fst kv)) ->
  exists keep : str -> bool, (forall k, ~ In 42 k -> (keep k = true <-> ~ exists p, In p ps /\ glob p k)) /\ after_drop ps attrs = filter (fun kv => keep (fst kv)) attrs.
Proof.
  intros ND H. exists (fun k => negb (any_match ps k)). split.
  { intros k NS. rewrite negb_true_iff, <- any_match_spec by exact NS. destruct (any_match ps k); split; congruence. }
  unfold after_drop, drop_attrs. destruct attrs as [|a0 attrs0] eqn:EA; [reflexivity|]. rewrite <- EA in *. clear EA a0 attrs0. destruct ps as [|p0 ps0] eqn:EP; [cbn [any_match existsb negb]; induction attrs as [|a l IH]; [reflexivity|]; cbn [filter any_match existsb negb]; f_equal; apply IH; [inversion ND; assumption|intros kv I; apply H; right; exact I]|]. rewrite <- EP in *. clear EP p0 ps0.
  assert (FE : forall f g : str * V -> bool, (forall kv, In kv attrs -> f kv = g kv) -> filter f attrs = filter g attrs).
  { clear. intros f g. induction attrs as [|a l IH]; intros K; [reflexivity|]. cbn [filter]. rewrite (K a (or_introl eq_refl)), IH; [reflexivity|]. intros kv I. apply K. right. exact I. }
  destruct (forallb _ _ && _) eqn:D.
  - apply default_patterns in D. subst ps.
    assert (U : forall kv, In kv attrs -> unsafe_key (lower (fst kv)) = any_match [u "*:*"; u "on*"; u "srcdoc"] (fst kv)).
    { intros kv I. destruct (H kv I) as (Hl & _ & NS). rewrite Hl. apply Bool.eq_iff_eq_true. rewrite unsafe_key_spec, any_match_spec by exact NS. reflexivity. }
    transitivity (filter (fun kv => negb (unsafe_key (lower (fst kv)))) attrs); [|apply FE; intros kv I; rewrite (U kv I); reflexivity].
    destruct (existsb _ attrs) eqn:EX; [reflexivity|]. symmetry. apply filter_id. rewrite <- EX. clear. induction attrs as [|a l IH]; [reflexivity|]. cbn [existsb]. rewrite negb_involutive, IH. reflexivity.
  - destruct (existsb _ attrs) eqn:EX.
    + rewrite fold_put_filter; [cbn [app]; apply FE; intros kv I; destruct (H kv I) as (-> & _); reflexivity|exact ND|]. intros kv I. destruct (H kv I) as (A & B & _). split; assumption.
    + symmetry. apply filter_id. rewrite <- EX. clear - H. induction attrs as [|a l IH]; [reflexivity|]. cbn [existsb]. destruct (H a (or_introl eq_refl)) as (-> & -> & _). rewrite negb_involutive, IH; [reflexivity|]. intros kv I. apply H. right. exact I.
Qed.
