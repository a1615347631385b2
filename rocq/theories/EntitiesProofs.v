(* Proofs about EntitiesModel.v against HtmlCharRefSpec.v *)
From Coq Require Import Lia ZifyBool ZifyN ZifyNat.
From Verif Require Import Str StrFacts EntityTable EntitiesModel EntityTableFacts HtmlCharRefSpec.
Open Scope N_scope.

(* ---------- finite facts about ASCII ---------- *)
Definition ascii_all : list N := Eval vm_compute in map N.of_nat (seq 0 128).
Lemma ascii_all_In c : c < 128 -> In c ascii_all.
Proof.
  intros H. replace ascii_all with (map N.of_nat (seq 0 128)) by (vm_compute; reflexivity).
  apply in_map_iff. exists (N.to_nat c). split; [lia|]. apply in_seq. lia.
Qed.
Lemma ascii_forall (P : N -> bool) : forallb P ascii_all = true -> forall c, c < 128 -> P c = true.
Proof. rewrite forallb_forall; intros H c Hc; apply H, ascii_all_In; exact Hc. Qed.

Lemma isname_ascii c : c < 128 -> (is_alpha c || is_digit c) = is_alnum_ascii c.
Proof.
  intros H. apply Bool.eqb_prop.
  apply (ascii_forall (fun c => Bool.eqb (is_alpha c || is_digit c) (is_alnum_ascii c))); [vm_compute; reflexivity|exact H].
Qed.
Lemma is_digit_ascii_eq c : c < 128 -> is_digit c = is_digit_ascii c.
Proof.
  intros H. apply Bool.eqb_prop.
  apply (ascii_forall (fun c => Bool.eqb (is_digit c) (is_digit_ascii c))); [vm_compute; reflexivity|exact H].
Qed.
Lemma is_alnum_ascii_eq c : c < 128 -> is_alnum c = is_alnum_ascii c.
Proof.
  intros H. apply Bool.eqb_prop.
  apply (ascii_forall (fun c => Bool.eqb (is_alnum c) (is_alnum_ascii c))); [vm_compute; reflexivity|exact H].
Qed.
Lemma is_alnum_ascii_lt c : is_alnum_ascii c = true -> c < 128.
Proof. unfold is_alnum_ascii, is_alpha_ascii, is_upper_ascii, is_lower_ascii, is_digit_ascii. lia. Qed.
Lemma is_digit_ascii_lt c : is_digit_ascii c = true -> c < 128.
Proof. unfold is_digit_ascii. lia. Qed.

Lemma assoc_In {A} k (v : A) l : assoc k l = Some v -> In (k, v) l.
Proof.
  induction l as [|[k' v'] l IH]; cbn [assoc]; [discriminate|].
  destruct (str_eqb k k') eqn:E.
  - apply str_eqb_eq in E; subst. intros H; injection H as ->. left; reflexivity.
  - intros H; right; auto.
Qed.

Lemma table_name_shape k v : In (k, v) html5_table ->
  exists r, r <> [] /\ forallb is_alnum_ascii r = true /\ (List.length r <= max_named_entity_length)%nat /\
  assoc r named_entities = Some v /\
  (k = (r ++ [59])%list \/ (k = r /\ in_strs r legacy_entities = true)).
Proof.
  intros H. pose proof table_names_ok as T; rewrite forallb_forall in T; specialize (T _ H); cbn [fst] in T.
  pose proof table_named as T2; rewrite forallb_forall in T2; specialize (T2 _ H); cbn [fst snd] in T2.
  pose proof table_legacy as T3; rewrite forallb_forall in T3; specialize (T3 _ H); cbn [fst snd] in T3.
  apply opt_str_eqb_eq in T2. unfold name_ok in T. exists (strip_semi k).
  repeat (apply andb_prop in T; destruct T as [T ?]).
  split; [intros E; rewrite E in T; discriminate|]. split; [assumption|]. split; [lia|]. split; [exact T2|].
  unfold has_semi_name in *. destruct (ends [59] k) eqn:E.
  - left. apply str_eqb_eq; assumption.
  - right. apply str_eqb_eq in H0. rewrite <- H0 at 1. split; [reflexivity|]. rewrite <- H0. exact T3.
Qed.

Lemma named_in_table r v : assoc r named_entities = Some v -> In ((r ++ [59])%list, v) html5_table.
Proof.
  intros H; apply assoc_In in H. pose proof named_keys_agree as T; rewrite forallb_forall in T; specialize (T _ H).
  cbn [fst snd] in T. apply opt_str_eqb_eq in T. apply assoc_In; exact T.
Qed.

Lemma legacy_in_table r : in_strs r legacy_entities = true ->
  exists v, In (r, v) html5_table /\ assoc r named_entities = Some v /\ (List.length r <= max_legacy_entity_length)%nat /\ r <> [].
Proof.
  intros H; apply in_strs_In in H. pose proof legacy_table as T; rewrite forallb_forall in T; specialize (T _ H).
  cbn beta in T. destruct (assoc r html5_table) as [v|] eqn:E; [|discriminate].
  repeat (apply andb_prop in T; destruct T as [T ?]). apply opt_str_eqb_eq in T.
  exists v; split; [apply assoc_In; exact E|]; split; [exact T|]; split; [lia|].
  intros ->. match goal with H : negb (Nat.eqb _ _) = true |- _ => discriminate H end.
Qed.

Lemma table_val_unique k v w : In (k, v) html5_table -> In (k, w) html5_table -> v = w.
Proof.
  pose proof table_keys_unique as T; rewrite forallb_forall in T. intros H1 H2.
  pose proof (T _ H1) as A1. pose proof (T _ H2) as A2. cbn [fst snd] in *.
  apply opt_str_eqb_eq in A1, A2. congruence.
Qed.

(* ---------- longest_named ---------- *)
Definition better (rest : str) (best : option (str * str)) (e : str * str) : option (str * str) :=
  if starts (fst e) rest
  then match best with
       | Some b => if Nat.ltb (List.length (fst b)) (List.length (fst e)) then Some e else best
       | None => Some e
       end
  else best.
Lemma longest_fold rest l best :
  let r := fold_left (better rest) l best in
  (forall b, best = Some b -> exists b', r = Some b' /\ (List.length (fst b) <= List.length (fst b'))%nat) /\
  (forall e, In e l -> starts (fst e) rest = true -> exists b', r = Some b' /\ (List.length (fst e) <= List.length (fst b'))%nat) /\
  (forall b', r = Some b' -> best = Some b' \/ (In b' l /\ starts (fst b') rest = true)).
Proof.
  revert best; induction l as [|e l IH]; intros best; cbn [fold_left].
  - split; [intros b ->; exists b; split; [reflexivity|lia]|]. split; [intros e []|]. intros b' H; left; exact H.
  - destruct (IH (better rest best e)) as (H1 & H2 & H3). split; [|split].
    + intros b ->. unfold better in H1, H2, H3 |- *. destruct (starts (fst e) rest).
      * destruct (Nat.ltb_spec (List.length (fst b)) (List.length (fst e))).
        -- destruct (H1 e eq_refl) as (b' & E & L); exists b'; split; [exact E|lia].
        -- exact (H1 b eq_refl).
      * exact (H1 b eq_refl).
    + intros e' [->|Hin] Hs; [|exact (H2 e' Hin Hs)].
      unfold better in H1, H2, H3 |- *. rewrite Hs in *. destruct best as [b|].
      * destruct (Nat.ltb_spec (List.length (fst b)) (List.length (fst e'))).
        -- exact (H1 e' eq_refl).
        -- destruct (H1 b eq_refl) as (b' & E & L); exists b'; split; [exact E|lia].
      * exact (H1 e' eq_refl).
    + intros b' E. destruct (H3 b' E) as [H|[H H']]; [|right; split; [right; exact H|exact H']].
      unfold better in H. destruct (starts (fst e) rest) eqn:Hs; [|left; exact H].
      destruct best as [b|].
      * destruct (Nat.ltb _ _); [right; injection H as <-; split; [left; reflexivity|exact Hs] | left; exact H].
      * right; injection H as <-; split; [left; reflexivity|exact Hs].
Qed.

Lemma longest_named_Some rest k v : In (k, v) html5_table -> starts k rest = true ->
  (forall k' v', In (k', v') html5_table -> starts k' rest = true -> (List.length k' <= List.length k)%nat) ->
  longest_named rest = Some (k, v).
Proof.
  intros Hin Hs Hmax. unfold longest_named. change (fold_left _ html5_table None) with (fold_left (better rest) html5_table None).
  destruct (longest_fold rest html5_table None) as (_ & H2 & H3).
  destruct (H2 (k, v) Hin Hs) as ([k' v'] & E & L). cbn [fst] in L. rewrite E. f_equal.
  destruct (H3 _ E) as [H|[H H']]; [discriminate|]. cbn [fst] in H'.
  specialize (Hmax _ _ H H').
  apply starts_spec in Hs. destruct Hs as (t1 & E1). apply starts_spec in H'. destruct H' as (t2 & E2).
  assert (k' = k).
  { assert (HL : List.length k = List.length k') by lia. rewrite E2 in E1.
    clear - HL E1. revert k HL E1; induction k' as [|x k' IH]; intros [|y k] HL E1; cbn in HL; try lia; [reflexivity|].
    cbn in E1. injection E1 as -> E1. f_equal. apply IH; [lia|exact E1]. }
  subst k'. f_equal. exact (table_val_unique _ _ _ H Hin).
Qed.

Lemma longest_named_None rest : (forall k v, In (k, v) html5_table -> starts k rest = false) -> longest_named rest = None.
Proof.
  intros Hno. unfold longest_named. change (fold_left _ html5_table None) with (fold_left (better rest) html5_table None).
  destruct (longest_fold rest html5_table None) as (_ & _ & H3).
  destruct (fold_left (better rest) html5_table None) as [[k v]|]; [|reflexivity].
  destruct (H3 _ eq_refl) as [H|[H H']]; [discriminate|]. cbn in H'. rewrite (Hno _ _ H) in H'. discriminate.
Qed.

(* ---------- legacy_prefix ---------- *)
Lemma legacy_prefix_Some t K v k : legacy_prefix t K = Some (v, k) ->
  (1 <= k <= K)%nat /\ in_strs (firstn k t) legacy_entities = true /\ assoc (firstn k t) named_entities = Some v /\
  (forall j, (k < j <= K)%nat -> in_strs (firstn j t) legacy_entities = false).
Proof.
  induction K as [|K IH]; [discriminate|]. cbn [legacy_prefix].
  destruct (in_strs (firstn (S K) t) legacy_entities) eqn:E.
  - destruct (legacy_in_table _ E) as (w & _ & Ew & _). rewrite Ew.
    intros H; injection H as <- <-. split; [lia|]. split; [exact E|]. split; [exact Ew|]. intros; lia.
  - intros H; destruct (IH H) as (H1 & H2 & H3 & H4). split; [lia|]. split; [exact H2|]. split; [exact H3|].
    intros j Hj. destruct (Nat.eq_dec j (S K)) as [->|]; [exact E|apply H4; lia].
Qed.

Lemma legacy_prefix_None t K : legacy_prefix t K = None ->
  forall j, (1 <= j <= K)%nat -> in_strs (firstn j t) legacy_entities = false.
Proof.
  induction K as [|K IH]; [intros; lia|]. cbn [legacy_prefix].
  destruct (in_strs (firstn (S K) t) legacy_entities) eqn:E.
  - destruct (legacy_in_table _ E) as (w & _ & Ew & _). rewrite Ew. discriminate.
  - intros H j Hj. destruct (Nat.eq_dec j (S K)) as [->|]; [exact E|apply IH; [exact H|lia]].
Qed.

(* ---------- the name run ---------- *)

Lemma alnum_isname r : forallb is_alnum_ascii r = true -> forallb isname r = true.
Proof.
  rewrite !forallb_forall; intros H x Hx. unfold isname. rewrite isname_ascii; auto using is_alnum_ascii_lt.
Qed.
Lemma isname_semi : isname 59 = false. Proof. vm_compute; reflexivity. Qed.

Lemma take_while_app_stop p r t : forallb p r = true -> take_while p (r ++ t)%list = (r ++ take_while p t)%list.
Proof.
  induction r as [|x r IH]; cbn; [reflexivity|]. intros H; apply andb_prop in H; destruct H as [-> H].
  rewrite IH by exact H; reflexivity.
Qed.
Lemma drop_while_app_stop p r t : forallb p r = true -> drop_while p (r ++ t)%list = drop_while p t.
Proof.
  induction r as [|x r IH]; cbn; [reflexivity|]. intros H; apply andb_prop in H; destruct H as [-> H].
  apply IH; exact H.
Qed.

Lemma firstn_take_while p t k : (k <= List.length (take_while p t))%nat -> firstn k t = firstn k (take_while p t).
Proof.
  revert k; induction t as [|x t IH]; intros k; cbn [take_while].
  - intros _; reflexivity.
  - destruct (p x).
    + destruct k as [|k]; [reflexivity|]. cbn [firstn List.length]. intros H. rewrite IH by lia. reflexivity.
    + cbn [List.length]. intros H. replace k with O by lia. reflexivity.
Qed.

(* Which table names are prefixes of t: exactly run++";" when it follows, or legacy prefixes of the run. *)
Lemma matching_name t k v : In (k, v) html5_table -> starts k t = true ->
  let run := take_while isname t in
  (k = (run ++ [59])%list /\ semi (drop_while isname t) = true /\ assoc run named_entities = Some v
     /\ (List.length run <= max_named_entity_length)%nat) \/
  (in_strs k legacy_entities = true /\ (List.length k <= List.length run)%nat /\ k = firstn (List.length k) t
    /\ (List.length k <= max_legacy_entity_length)%nat /\ (1 <= List.length k)%nat).
Proof.
  intros Hin Hs run. apply starts_spec in Hs. destruct Hs as (t' & ->).
  destruct (table_name_shape _ _ Hin) as (r & Hne & Hal & Hlen & Has & [->|[-> Hleg]]).
  - left. pose proof (alnum_isname _ Hal) as Hr. unfold run. rewrite <- app_assoc.
    rewrite take_while_app_stop, drop_while_app_stop by exact Hr. cbn [app take_while drop_while].
    rewrite isname_semi. rewrite app_nil_r. auto.
  - right. pose proof (alnum_isname _ Hal) as Hr. unfold run. rewrite take_while_app_stop by exact Hr.
    destruct (legacy_in_table _ Hleg) as (_ & _ & _ & HL & _).
    split; [exact Hleg|]. split; [rewrite app_length; lia|]. split.
    + rewrite firstn_app, Nat.sub_diag, firstn_all, firstn_O, app_nil_r. reflexivity.
    + split; [exact HL|]. destruct r; [congruence|cbn; lia].
Qed.

Lemma run_starts t j : (j <= List.length (take_while isname t))%nat -> starts (firstn j t) t = true.
Proof. intros _. apply starts_spec. exists (skipn j t). symmetry; apply firstn_skipn. Qed.

Lemma take_while_length_le p t : (List.length (take_while p t) <= List.length t)%nat.
Proof. induction t as [|x t IH]; cbn; [lia|]. destruct (p x); cbn; lia. Qed.

(* longest_named expressed through the code's two lookups *)
Lemma longest_named_code t :
  let run := take_while isname t in
  let after := drop_while isname t in
  let name := if Nat.leb (List.length run) max_named_entity_length then run else [] in
  longest_named t =
    match (if semi after then assoc name named_entities else None) with
    | Some v => Some ((run ++ [59])%list, v)
    | None => match legacy_prefix t (Nat.min (List.length run) max_legacy_entity_length) with
              | Some (v, k) => Some (firstn k t, v)
              | None => None
              end
    end.
Proof.
  intros run after name.
  assert (Hsplit : t = (run ++ after)%list) by apply drop_while_app.
  destruct (if semi after then assoc name named_entities else None) as [v|] eqn:Ex.
  - destruct (semi after) eqn:Hsemi; [|discriminate].
    destruct after as [|c after'] eqn:Ha; [discriminate|]. cbn in Hsemi. apply N.eqb_eq in Hsemi; subst c.
    assert (Hname : name = run).
    { unfold name in *. destruct (Nat.leb _ _) eqn:?; [reflexivity|]. exfalso.
      pose proof (named_in_table _ _ Ex) as Hi. apply table_name_shape in Hi.
      destruct Hi as (r & Hne & _ & _ & _ & [E|[E Hl]]); [destruct r as [|? [|]]; [congruence|discriminate E|discriminate E]|].
      cbn in E. subst r. rewrite legacy_semi_only in Hl. discriminate Hl. }
    rewrite Hname in Ex. apply longest_named_Some.
    + apply named_in_table; exact Ex.
    + rewrite Hsplit. apply starts_spec; exists after'. rewrite <- app_assoc; reflexivity.
    + intros k' v' Hin Hs. destruct (matching_name _ _ _ Hin Hs) as [(E & _)|(_ & L & _)].
      * rewrite E. fold run. lia.
      * fold run in L. rewrite app_length. cbn. lia.
  - destruct (legacy_prefix t _) as [[v k]|] eqn:Eb.
    + destruct (legacy_prefix_Some _ _ _ _ Eb) as (Hk & Hleg & Has & Hmax).
      destruct (legacy_in_table _ Hleg) as (w & Hin & Ew & _). assert (w = v) by congruence; subst w.
      assert (Hfl : List.length (firstn k t) = k).
      { apply firstn_length_le. pose proof (take_while_length_le isname t). fold run in H. lia. }
      apply longest_named_Some; [exact Hin| apply run_starts; fold run; lia|].
      intros k' v' Hin' Hs'. destruct (matching_name _ _ _ Hin' Hs') as [(E & S1 & A1 & L1)|(L1 & L2 & L3 & L4 & L5)].
      * exfalso. fold run in E, A1, L1. fold after in S1. rewrite S1 in Ex. unfold name in Ex.
        destruct (Nat.leb_spec (List.length run) max_named_entity_length); [congruence|lia].
      * rewrite Hfl. destruct (Nat.le_gt_cases (List.length k') k) as [|Hgt]; [assumption|]. exfalso.
        fold run in L2. rewrite L3 in L1. rewrite Hmax in L1; [discriminate|]. lia.
    + pose proof (legacy_prefix_None _ _ Eb) as Hno. apply longest_named_None. intros k v Hin.
      destruct (starts k t) eqn:Hs; [|reflexivity]. exfalso.
      destruct (matching_name _ _ _ Hin Hs) as [(E & S1 & A1 & L1)|(L1 & L2 & L3 & L4 & L5)].
      * fold run in E, A1, L1. fold after in S1. rewrite S1 in Ex. unfold name in Ex.
        destruct (Nat.leb_spec (List.length run) max_named_entity_length); [congruence|lia].
      * fold run in L2. rewrite L3 in L1. rewrite Hno in L1; [discriminate|]. lia.
Qed.

(* ---------- numeric references ---------- *)
Lemma py_digit_dec c : is_digit_ascii c = true -> py_digit false c = Some (decval c).
Proof.
  intros H. pose proof (is_digit_ascii_lt _ H) as Hlt.
  assert (T : forall c, c < 128 -> (if is_digit_ascii c then match py_digit false c with Some d => d =? decval c | None => false end else true) = true).
  { apply ascii_forall. vm_compute. reflexivity. }
  specialize (T c Hlt). rewrite H in T. destruct (py_digit false c); [|discriminate]. f_equal. lia.
Qed.
Lemma py_digit_hex c : is_hex_ascii c = true -> py_digit true c = Some (hexval c).
Proof.
  intros H. assert (Hlt : c < 128) by (unfold is_hex_ascii, is_digit_ascii in H; lia).
  assert (T : forall c, c < 128 -> (if is_hex_ascii c then match py_digit true c with Some d => d =? hexval c | None => false end else true) = true).
  { apply ascii_forall. vm_compute. reflexivity. }
  specialize (T c Hlt). rewrite H in T. destruct (py_digit true c); [|discriminate]. f_equal. lia.
Qed.

Definition val_of (hex : bool) : N -> N := if hex then hexval else decval.
Definition base_of (hex : bool) : N := if hex then 16 else 10.
Definition isdig (hex : bool) : N -> bool := if hex then is_hex_ascii else is_digit_ascii.

Lemma py_int_value hex s acc : forallb (isdig hex) s = true ->
  py_int hex acc s = Some (fold_left (fun a d => a * base_of hex + d) (map (val_of hex) s) acc).
Proof.
  revert acc; induction s as [|c s IH]; intros acc; cbn [py_int map fold_left forallb]; [reflexivity|].
  intros H; apply andb_prop in H; destruct H as [Hc H]. destruct hex; cbn [isdig val_of base_of] in *.
  - rewrite py_digit_hex by exact Hc. apply IH; exact H.
  - rewrite py_digit_dec by exact Hc. apply IH; exact H.
Qed.

Lemma fold_ge b ds acc : 1 <= b -> acc * b ^ N.of_nat (List.length ds) <= fold_left (fun a d => a * b + d) ds acc.
Proof.
  intros Hb; revert acc; induction ds as [|d ds IH]; intros acc; cbn [fold_left List.length].
  - cbn. lia.
  - specialize (IH (acc * b + d)). rewrite Nat2N.inj_succ, N.pow_succ_r' . nia.
Qed.

Lemma isdig_val_pos hex c : isdig hex c = true -> c <> 48 -> 1 <= val_of hex c.
Proof.
  destruct hex; cbn [isdig val_of]; unfold is_hex_ascii, hexval, decval, is_upper_ascii, is_digit_ascii;
    [destruct ((48 <=? c) && (c <=? 57)) eqn:?; [lia|destruct ((65 <=? c) && (c <=? 90)) eqn:?; lia] | lia].
Qed.

Lemma val_zero hex : val_of hex 48 = 0. Proof. destruct hex; reflexivity. Qed.

Lemma drop_zeros_value hex s :
  fold_left (fun a d => a * base_of hex + d) (map (val_of hex) (drop_while (fun c => c =? 48) s)) 0
  = fold_left (fun a d => a * base_of hex + d) (map (val_of hex) s) 0.
Proof.
  induction s as [|c s IH]; [reflexivity|]. cbn [drop_while]. destruct (N.eqb_spec c 48) as [->|].
  - cbn [map fold_left]. rewrite val_zero. rewrite N.mul_0_l, N.add_0_l. exact IH.
  - reflexivity.
Qed.

Lemma numeric_char_model cp :
  (if 1114111 <? cp then Some [65533]
   else if (55296 <=? cp) && (cp <=? 57343) then Some [65533]
   else match List.find (fun p => fst p =? cp) numeric_replacements with Some p => Some [snd p] | None => Some [cp] end)
  = Some [numeric_char cp].
Proof.
  unfold numeric_char. change numeric_replacements with ((0, 65533) :: c1_table). cbn [List.find fst].
  destruct (N.eqb_spec cp 0) as [->|Hn]; [reflexivity|].
  replace (0 =? cp) with false by lia.
  destruct (1114111 <? cp); [reflexivity|]. destruct ((55296 <=? cp) && (cp <=? 57343)); [reflexivity|].
  destruct (List.find _ _); reflexivity.
Qed.

Lemma decode_numeric_spec hex ds : ds <> [] -> forallb (isdig hex) ds = true ->
  decode_numeric_entity ds hex = Some [numeric_char (digits_value (base_of hex) (map (val_of hex) ds))].
Proof.
  intros Hne Hd. unfold decode_numeric_entity, digits_value.
  rewrite <- drop_zeros_value.
  set (st := drop_while (fun c => c =? 48) ds).
  assert (Hst : forallb (isdig hex) st = true).
  { rewrite forallb_forall in *; intros x Hx; apply Hd. exact (drop_while_incl _ _ _ Hx). }
  destruct st as [|c st'] eqn:Est.
  - cbn [List.length]. change (Nat.ltb 16 1) with false. cbv iota.
    replace (py_int hex 0 [48]) with (Some 0) by (destruct hex; vm_compute; reflexivity).
    cbn [map fold_left]. apply numeric_char_model.
  - destruct (Nat.ltb_spec 16 (List.length (c :: st'))) as [Hlong|Hshort].
    + f_equal. f_equal.
      assert (Hc : c <> 48). { pose proof (drop_while_head _ _ _ _ Est) as H; cbn beta in H. lia. }
      cbn [forallb] in Hst. apply andb_prop in Hst; destruct Hst as [Hc' _].
      pose proof (isdig_val_pos hex c Hc' Hc) as Hpos.
      cbn [map fold_left]. rewrite N.mul_0_l, N.add_0_l.
      pose proof (fold_ge (base_of hex) (map (val_of hex) st') (val_of hex c)) as Hge.
      assert (Hb : 1 <= base_of hex) by (destruct hex; cbn; lia). specialize (Hge Hb). rewrite map_length in Hge.
      assert (Hp : 10 ^ 16 <= base_of hex ^ N.of_nat (List.length st')).
      { transitivity (base_of hex ^ 16). - destruct hex; vm_compute; discriminate.
        - apply N.pow_le_mono_r; [destruct hex; cbn; lia|]. cbn [List.length] in Hlong. lia. }
      assert (Hp' : 10 ^ 16 = 10000000000000000) by (vm_compute; reflexivity). rewrite Hp' in Hp.
      unfold numeric_char. destruct (_ =? 0); [reflexivity|].
      match goal with |- context [1114111 <? ?x] => replace (1114111 <? x) with true; [reflexivity|] end.
      symmetry. apply N.ltb_lt. nia.
    + rewrite py_int_value by exact Hst. apply numeric_char_model.
Qed.

(* ---------- flushing ---------- *)
Lemma decode_spec_flush a n t : forallb (fun c => negb (c =? 38)) (firstn n t) = true ->
  decode_spec_go a O t = (firstn n t ++ decode_spec_go a n t)%list.
Proof.
  revert t; induction n as [|n IH]; intros [|c t]; cbn [firstn]; try reflexivity.
  cbn [forallb]. intros H; apply andb_prop in H; destruct H as [Hc H]. cbn [decode_spec_go].
  destruct (c =? 38); [discriminate|]. cbn [app]. f_equal. apply IH; exact H.
Qed.

Lemma isname_not_amp : isname 38 = false. Proof. vm_compute; reflexivity. Qed.

Lemma no_amp p s : p 38 = false -> forallb p s = true -> forallb (fun c => negb (c =? 38)) s = true.
Proof.
  intros Hp. rewrite !forallb_forall; intros H x Hx. destruct (N.eqb_spec x 38) as [->|]; [|reflexivity].
  specialize (H _ Hx). congruence.
Qed.

(* ---------- one reference ---------- *)
(* Characters on which Python's Unicode classes and the standard's ASCII classes agree. *)
Definition char_ok (in_attribute : bool) (c : N) : bool :=
  is_ascii_char c || negb (if in_attribute then is_alnum c else is_digit c).

Lemma char_ok_digit a c : char_ok a c = true -> is_digit c = is_digit_ascii c.
Proof.
  unfold char_ok, is_ascii_char. destruct (N.ltb_spec c 128) as [H|H]; [intros _; apply is_digit_ascii_eq; exact H|].
  cbn [orb]. assert (Hf : is_digit_ascii c = false) by (destruct (is_digit_ascii c) eqn:E; [apply is_digit_ascii_lt in E; lia|reflexivity]).
  rewrite Hf. destruct a.
  - unfold is_alnum. destruct (is_digit c); [rewrite Bool.orb_true_r; cbn; discriminate|reflexivity].
  - destruct (is_digit c); [discriminate|reflexivity].
Qed.

Lemma char_ok_alnum c : char_ok true c = true -> is_alnum c = is_alnum_ascii c.
Proof.
  unfold char_ok, is_ascii_char. destruct (N.ltb_spec c 128) as [H|H]; [intros _; apply is_alnum_ascii_eq; exact H|].
  cbn [orb]. assert (Hf : is_alnum_ascii c = false) by (destruct (is_alnum_ascii c) eqn:E; [apply is_alnum_ascii_lt in E; lia|reflexivity]).
  rewrite Hf. destruct (is_alnum c); [discriminate|reflexivity].
Qed.

Lemma take_while_ext p q s : (forall c, In c s -> p c = q c) -> take_while p s = take_while q s.
Proof.
  induction s as [|c s IH]; intros H; [reflexivity|]. cbn [take_while].
  rewrite (H c (or_introl eq_refl)). destruct (q c); [|reflexivity]. f_equal. apply IH. intros; apply H; right; assumption.
Qed.
Lemma drop_while_ext p q s : (forall c, In c s -> p c = q c) -> drop_while p s = drop_while q s.
Proof.
  induction s as [|c s IH]; intros H; [reflexivity|]. cbn [drop_while].
  rewrite (H c (or_introl eq_refl)). destruct (q c); [|reflexivity]. apply IH. intros; apply H; right; assumption.
Qed.

Lemma semi_len_semi t : semi_len t = if semi t then 1%nat else O.
Proof. destruct t as [|c t]; [reflexivity|]. cbn [semi semi_len]. destruct (c =? 59); reflexivity. Qed.

Definition step_agrees (a : bool) (t : str) (r : ent_result) : Prop :=
  exists w n, r = EntOk w n /\
    match charref a t with
    | Some (v, m) => w = v /\ n = m
    | None => w = 38 :: firstn n t /\ forallb (fun c => negb (c =? 38)) (firstn n t) = true
    end.

Lemma firstn_succ_app (r s : str) c : firstn (S (List.length r)) (r ++ c :: s)%list = (r ++ [c])%list.
Proof. induction r as [|x r IH]; cbn [List.length app firstn]; [reflexivity|]. f_equal; exact IH. Qed.

Lemma legacy_no_semi r : in_strs r legacy_entities = true -> ends [59] r = false.
Proof.
  intros H; apply in_strs_In in H. pose proof legacy_table as T; rewrite forallb_forall in T; specialize (T _ H).
  cbn beta in T. apply andb_prop in T; destruct T as [T _]. apply andb_prop in T; destruct T as [_ T].
  unfold has_semi_name in T. destruct (ends [59] r); [discriminate|reflexivity].
Qed.

Lemma ends_snoc r c : ends [c] (r ++ [c])%list = true.
Proof. unfold ends. rewrite rev_app_distr. cbn. rewrite N.eqb_refl. reflexivity. Qed.

Lemma list_nil_dec (l : str) : l = [] \/ l <> [].
Proof. destruct l; [left; reflexivity|right; discriminate]. Qed.
Lemma match_ne {A} (l : str) (a b : A) : l <> [] -> match l with [] => a | _ :: _ => b end = b.
Proof. destruct l; [congruence|reflexivity]. Qed.

Lemma entity_step_named a c0 t0 : let t := c0 :: t0 in (c0 =? 35) = false -> forallb (char_ok a) t = true ->
  step_agrees a t (entity_step a t).
Proof.
  intros t Hh Hok. unfold step_agrees. unfold entity_step, charref. unfold t at 1. rewrite Hh. unfold t at 2. rewrite Hh.
  fold t. clearbody t. clear c0 t0 Hh. unfold entity_named, charref_named. rewrite longest_named_code.
  set (run := take_while isname t). set (after := drop_while isname t).
  set (name := if Nat.leb (List.length run) max_named_entity_length then run else []).
  assert (Hsplit : t = (run ++ after)%list) by apply drop_while_app.
  assert (Hrun : forallb isname run = true) by apply take_while_all.
  cbv zeta.
  destruct (list_nil_dec run) as [Erun|Hrunne].
  { (* no name at all *)
    exists [38], O. split; [rewrite Erun; reflexivity|].
    assert (Eb : legacy_prefix t (Nat.min (List.length run) max_legacy_entity_length) = None) by (rewrite Erun; reflexivity).
    rewrite Eb. assert (En : assoc name named_entities = None) by (unfold name; rewrite Erun; exact named_nil).
    rewrite En. destruct (semi after); cbn [firstn forallb]; auto. }
  rewrite match_ne by exact Hrunne.
  destruct (if semi after then assoc name named_entities else None) as [v|] eqn:Ex.
  { exists v, (S (List.length run)). split; [reflexivity|]. rewrite ends_snoc.
    rewrite Bool.andb_false_r. cbn [andb]. split; [reflexivity|]. rewrite app_length; cbn; lia. }
  set (best := legacy_prefix t (Nat.min (List.length run) max_legacy_entity_length)).
  (* the exact legacy lookup is the special case k = length of the run *)
  assert (Hexact : forall v, (if in_strs name legacy_entities then assoc name named_entities else None) = Some v ->
            name = run /\ best = Some (v, List.length run)).
  { intros v Hv. destruct (in_strs name legacy_entities) eqn:El; [|discriminate].
    assert (Hn : name = run).
    { unfold name in *. destruct (Nat.leb _ _); [reflexivity|]. rewrite legacy_nil in El. discriminate El. }
    split; [exact Hn|]. rewrite Hn in El, Hv. destruct (legacy_in_table _ El) as (w & _ & Ew & HL & _).
    unfold best. rewrite Nat.min_l by lia.
    assert (Hlen : List.length run <> O) by (destruct run; [congruence|discriminate]).
    destruct (List.length run) as [|k] eqn:Ek; [congruence|]. cbn [legacy_prefix]. rewrite <- Ek.
    assert (Hf : firstn (List.length run) t = run).
    { unfold run. rewrite (firstn_take_while isname) by lia. apply firstn_all. }
    rewrite Hf, El, Hv. reflexivity. }
  assert (Hbest : forall v k, best = Some (v, k) -> (1 <= k <= List.length run)%nat /\
             in_strs (firstn k t) legacy_entities = true /\ List.length (firstn k t) = k /\ ends [59] (firstn k t) = false).
  { intros v k Hb. destruct (legacy_prefix_Some _ _ _ _ Hb) as (Hk & Hleg & _).
    split; [lia|]. split; [exact Hleg|]. split; [|apply legacy_no_semi; exact Hleg].
    apply firstn_length_le. pose proof (take_while_length_le isname t) as HL. fold run in HL. lia. }
  destruct a.
  - (* attribute *)
    rewrite Bool.andb_false_r.
    destruct (if in_strs name legacy_entities then assoc name named_entities else None) as [v|] eqn:El.
    + destruct (Hexact v eq_refl) as [Hn Hb]. rewrite Hb. destruct (Hbest _ _ Hb) as (_ & _ & Hfl & Hse).
      rewrite Hfl, Hse. cbn [negb andb].
      assert (Hnth : nth_error t (List.length run) = match after with c :: _ => Some c | [] => None end).
      { rewrite Hsplit at 1. rewrite nth_error_app2, Nat.sub_diag by lia. destruct after; reflexivity. }
      rewrite Hnth. destruct after as [|c after'] eqn:Ea.
      * exists v, (List.length run). auto.
      * assert (Hc : char_ok true c = true).
        { rewrite forallb_forall in Hok; apply Hok. rewrite Hsplit. apply in_or_app; right; left; reflexivity. }
        rewrite (char_ok_alnum _ Hc). rewrite Bool.orb_comm.
        destruct ((c =? 61) || is_alnum_ascii c).
        -- exists [38], O. cbn. auto.
        -- exists v, (List.length run). auto.
    + destruct best as [[v k]|] eqn:Eb.
      * destruct (Hbest _ _ eq_refl) as (Hk & Hleg & Hfl & Hse). rewrite Hfl, Hse. cbn [negb andb].
        assert (Hlt : (k < List.length run)%nat).
        { destruct (Nat.eq_dec k (List.length run)) as [->|]; [|lia]. exfalso.
          assert (Hf : firstn (List.length run) t = run).
          { unfold run. rewrite (firstn_take_while isname) by lia. apply firstn_all. }
          rewrite Hf in Hleg. destruct (legacy_in_table _ Hleg) as (w & Hin & Ew & HL & _).
          assert (Hn : name = run).
          { unfold name. destruct (Nat.leb_spec (List.length run) max_named_entity_length); [reflexivity|].
            exfalso. assert ((max_legacy_entity_length <= max_named_entity_length)%nat) by (vm_compute; lia). lia. }
          rewrite Hn, Hleg, Ew in El. discriminate. }
        destruct (nth_error run k) as [c|] eqn:En; [|apply nth_error_None in En; lia].
        assert (Hnth : nth_error t k = Some c) by (rewrite Hsplit, nth_error_app1 by lia; exact En).
        rewrite Hnth.
        assert (Hc : char_ok true c = true).
        { rewrite forallb_forall in Hok; apply Hok. eapply nth_error_In; exact Hnth. }
        assert (Hcn : isname c = true).
        { rewrite forallb_forall in Hrun; apply Hrun. eapply nth_error_In; exact En. }
        assert (Hca : is_alnum_ascii c = true).
        { rewrite <- (char_ok_alnum _ Hc). unfold is_alnum. unfold isname in Hcn. rewrite Hcn. reflexivity. }
        rewrite Hca, Bool.orb_true_r. exists [38], O. cbn. auto.
      * destruct (semi after) eqn:Hse.
        -- exists (38 :: firstn (S (List.length run)) t), (S (List.length run)). split; [reflexivity|]. split; [reflexivity|].
           destruct after as [|c after'] eqn:Ea; [discriminate|]. cbn in Hse. apply N.eqb_eq in Hse; subst c.
           rewrite Hsplit, firstn_succ_app, forallb_app. apply andb_true_intro; split; [|reflexivity].
           apply (no_amp isname); [exact isname_not_amp|exact Hrun].
        -- exists [38], O. cbn. auto.
  - (* text *)
    rewrite Bool.andb_true_r. cbn [andb].
    destruct best as [[v k]|] eqn:Eb.
    + destruct (Hbest _ _ eq_refl) as (Hk & Hleg & Hfl & Hse). rewrite Hfl.
      exists v, k. split; [|auto].
      destruct (semi after); [reflexivity|].
      destruct (if in_strs name legacy_entities then assoc name named_entities else None) as [v'|] eqn:El; [|reflexivity].
      destruct (Hexact v' eq_refl) as [_ Hb]. congruence.
    + replace (if semi after then None else None) with (@None (str * nat)) by (destruct (semi after); reflexivity).
      destruct (if in_strs name legacy_entities then assoc name named_entities else None) as [v'|] eqn:El.
      { destruct (Hexact v' eq_refl) as [_ Hb]. congruence. }
      destruct (semi after) eqn:Hse.
      * exists (38 :: firstn (S (List.length run)) t), (S (List.length run)). split; [reflexivity|]. split; [reflexivity|].
        destruct after as [|c after'] eqn:Ea; [discriminate|]. cbn in Hse. apply N.eqb_eq in Hse; subst c.
        rewrite Hsplit, firstn_succ_app, forallb_app. apply andb_true_intro; split; [|reflexivity].
        apply (no_amp isname); [exact isname_not_amp|exact Hrun].
      * exists [38], O. cbn. auto.
Qed.

Lemma entity_step_numeric a t1 : forallb (char_ok a) t1 = true -> step_agrees a (35 :: t1) (entity_step a (35 :: t1)).
Proof.
  intros Hok. unfold step_agrees. cbn [entity_step charref]. change (35 =? 35) with true. cbv iota. unfold entity_numeric, charref_numeric.
  set (is_hex := match t1 with x :: _ => (x =? 120) || (x =? 88) | [] => false end).
  assert (Hx : is_hex = true -> exists x t', t1 = x :: t' /\ (x =? 38) = false).
  { unfold is_hex. destruct t1 as [|x t']; [discriminate|]. intros H; exists x, t'; split; [reflexivity|lia]. }
  destruct is_hex.
  - destruct (Hx eq_refl) as (x & t' & -> & Hx38). cbn [tl].
    pose proof (take_while_all is_hex_ascii t') as Hall.
    rewrite semi_len_semi. destruct (take_while is_hex_ascii t') as [|d ds] eqn:Ed.
    + destruct (semi (drop_while is_hex_ascii t')) eqn:Hs.
      * eexists; exists 3%nat; split; [reflexivity|]; split; [reflexivity|].
        assert (exists q, t' = 59 :: q) as (q & ->).
        { pose proof (drop_while_app is_hex_ascii t') as E. rewrite Ed in E. cbn in E. rewrite <- E in Hs.
          destruct t' as [|c q]; [discriminate|]. cbn in Hs. exists q. f_equal. lia. }
        cbn. rewrite Hx38. reflexivity.
      * eexists; exists 2%nat; split; [reflexivity|]; split; [reflexivity|]. cbn. rewrite Hx38. reflexivity.
    + rewrite (decode_numeric_spec true) by (try discriminate; exact Hall).
      eexists; eexists; split; [reflexivity|]. split; [reflexivity|]. destruct (semi _); cbn; lia.
  - rewrite <- (take_while_ext is_digit is_digit_ascii t1), <- (drop_while_ext is_digit is_digit_ascii t1).
    2,3: intros c Hc; eapply char_ok_digit; rewrite forallb_forall in Hok; apply Hok; exact Hc.
    assert (Hall : forallb (isdig false) (take_while is_digit t1) = true).
    { rewrite (take_while_ext is_digit is_digit_ascii t1); [apply take_while_all|].
      intros c Hc; eapply char_ok_digit; rewrite forallb_forall in Hok; apply Hok; exact Hc. }
    rewrite semi_len_semi. destruct (take_while is_digit t1) as [|d ds] eqn:Ed.
    + destruct (semi (drop_while is_digit t1)) eqn:Hs.
      * eexists; exists 2%nat; split; [reflexivity|]; split; [reflexivity|].
        assert (exists q, t1 = 59 :: q) as (q & ->).
        { pose proof (drop_while_app is_digit t1) as E. rewrite Ed in E. cbn in E. rewrite <- E in Hs.
          destruct t1 as [|c q]; [discriminate|]. cbn in Hs. exists q. f_equal. lia. }
        cbn. reflexivity.
      * eexists; exists 1%nat; split; [reflexivity|]; split; reflexivity.
    + rewrite (decode_numeric_spec false) by (try discriminate; exact Hall).
      eexists; eexists; split; [reflexivity|]. split; [reflexivity|]. destruct (semi _); cbn; lia.
Qed.

Lemma decode_go_spec a s : forallb (char_ok a) s = true -> forall skip, decode_go a skip s = Some (decode_spec_go a skip s).
Proof.
  induction s as [|c t IH]; [reflexivity|]. cbn [forallb]. intros H; apply andb_prop in H; destruct H as [Hc Ht].
  intros [|k]; cbn [decode_go decode_spec_go]; [|apply IH; exact Ht].
  destruct (c =? 38) eqn:E38; [|rewrite IH by exact Ht; reflexivity].
  assert (Hs : step_agrees a t (entity_step a t)).
  { destruct t as [|x t1]; [exists [38], O; cbn; auto|]. destruct (x =? 35) eqn:Eh.
    - apply N.eqb_eq in Eh; subst x.
      apply entity_step_numeric. cbn [forallb] in Ht. apply andb_prop in Ht; tauto.
    - apply entity_step_named; [exact Eh|exact Ht]. }
  destruct Hs as (w & n & -> & Hw). rewrite IH by exact Ht. cbn [option_map]. f_equal.
  destruct (charref a t) as [[v m]|].
  - destruct Hw as [-> ->]. reflexivity.
  - destruct Hw as [-> Hf]. cbn [app]. apply N.eqb_eq in E38; subst c. f_equal.
    symmetry. apply decode_spec_flush; exact Hf.
Qed.

Lemma decode_entities_spec a s : forallb (char_ok a) s = true ->
  decode_entities_in_text s a = Some (decode_spec a s).
Proof. intros H; apply decode_go_spec; exact H. Qed.

(* No '&' at all: decoding is the identity, for every text. *)
Lemma decode_no_amp a s : ~ In 38 s -> decode_entities_in_text s a = Some s.
Proof.
  unfold decode_entities_in_text. induction s as [|c t IH]; intros H; [reflexivity|]. cbn [decode_go].
  replace (c =? 38) with false by (symmetry; apply N.eqb_neq; intros ->; apply H; left; reflexivity).
  rewrite IH; [reflexivity|]. intros Hin; apply H; right; exact Hin.
Qed.

Lemma c27 a s : (forall c, In c s -> c < 128 \/ (if a : bool then is_alnum c else is_digit c) = false) ->
  decode_entities_in_text s a = Some (decode_spec a s).
Proof.
  intros H. apply decode_entities_spec. apply forallb_forall. intros c Hc. unfold char_ok, is_ascii_char. destruct (H c Hc) as [H1|H1].
  - apply N.ltb_lt in H1. rewrite H1. reflexivity.
  - rewrite H1. apply orb_true_r.
Qed.
(* "&#" U+00B2 ";" : superscript two is a "digit" for str.isdigit but not for int() *)
Lemma c27_raises : exists s, decode_entities_in_text s false = None.
Proof. exists [38; 35; 178; 59]. vm_compute. reflexivity. Qed.
(* "&#" ARABIC-INDIC DIGIT SIX, FIVE ";" *)
Lemma c27_digits : exists s v, decode_entities_in_text s false = Some v /\ v <> decode_spec false s.
Proof. exists [38; 35; 1638; 1637; 59]. eexists. split; [vm_compute; reflexivity|]. vm_compute. intros H; discriminate H. Qed.
(* "&amp" e-acute *)
Lemma c27_attr : exists s v, decode_entities_in_text s true = Some v /\ v <> decode_spec true s.
Proof. exists (u "&amp" ++ [233])%list. eexists. split; [vm_compute; reflexivity|]. vm_compute. intros H; discriminate H. Qed.
