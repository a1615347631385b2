(* Proofs: when taking the nearest candidate suffices; whole selectors. *)
From Verif Require Import Str StrFacts SerializerModel SanModel SanFacts SanTreeProofs DomModel DomSpec DomViewProofs DomProofs DomInvProofs DomFinal SelModel SelSpec SelNodeProofs SelSibProofs SelMatchProofs SelChainProofs.
From Coq Require Import Lia.
Open Scope nat_scope.

Definition ids (rest : list (option comb * compound)) : list nat := map (fun p => cid (snd p)) rest.
Definition chain (cb : option comb) (rest : list (option comb * compound)) : list comb := (comb_list cb ++ List.concat (map (fun p => comb_list (fst p)) rest))%list.

Section S.
Variable h : heap.
Hypothesis FF : full_forest h.
Hypothesis FN : forall x p, parent h x = Some p -> is_fragment h x -> ~ is_element h x.
Hypothesis DB : forall x, exists n, depth (fun x => parent h x) x n /\ n <= hnext h.
Variable over : nat -> bool.
Let F := ff_forest h FF.
Variable level : nat.
Variable deeper : nat -> selector -> M bool.
Hypothesis deeper_keeps : forall x s, arg_ok s -> keeps (deeper x s).
Hypothesis deeper_exact : forall x s, arg_ok s -> is_element h x -> exact (deeper x s) (sat h s x).
Variable ci : nat -> compound.
Notation sc := (sat_compound h).
Notation known := (known ci).
Notation left_sat := (left_sat h).
Notation anc_exact_for := (anc_exact_for h level).
Notation prev_exact := (prev_exact h ci).
Notation parts_ok := (parts_ok ci).

Lemma mono_above y z cb rest : forallb is_desc (chain cb rest) = true -> above h y z -> left_sat y cb rest -> left_sat z cb rest.
Proof.
  intros D A H. destruct rest as [|[cb' c] rest]; [exact I|]. cbn [SelChainProofs.left_sat] in *. destruct H as [w [R [S L]]]. exists w. split; [|split; [exact S|exact L]].
  destruct cb as [k|]; [|exact R]. unfold chain in D. cbn [comb_list app forallb] in D. apply andb_true_iff in D. destruct D as [D _]. destruct k; try discriminate D.
  cbn [related] in *. destruct R as [p [P1 P2]]. inversion A as [|? ? q Q1 Q2]; subst; [exists p; auto|]. exists q. split; [exact Q1|].
  apply (above_trans h w y q); [|exact Q2]. eapply above_up; eauto.
Qed.
Lemma sib_parent y z : related h Sib y z -> exists p, parent h z = Some p /\ parent h y = Some p.
Proof.
  intros [l1 [l2 [[p [P C]] I]]]. exists p. split; [exact P|]. apply (child_has_parent h F). rewrite C. apply in_or_app. left. exact I.
Qed.
Lemma sib_trans w y z : related h Sib w y -> related h Sib y z -> related h Sib w z.
Proof.
  intros [a1 [a2 [[p [P C]] I1]]] [b1 [b2 [[q [Q D]] I2]]]. exists b1, b2. split; [exists q; auto|].
  assert (parent h y = Some q) by (apply (child_has_parent h F); rewrite D; apply in_or_app; left; exact I2). assert (p = q) as -> by congruence.
  apply in_split in I2. destruct I2 as [c1 [c2 ->]]. pose proof (child_once h F q) as ND. rewrite D in ND.
  assert (E : (a1 ++ y :: a2)%list = (c1 ++ y :: (c2 ++ z :: b2))%list) by (rewrite <- C, D, <- app_assoc; reflexivity).
  assert (a1 = c1).
  { rewrite <- app_assoc in ND. cbn [app] in ND. assert (N1 : ~ In y c1) by (intros X; apply NoDup_remove_2 in ND; apply ND; apply in_or_app; left; exact X).
    rewrite D in C. rewrite E in C. pose proof (child_once h F q) as ND2. rewrite D, C in ND2. rewrite <- E in ND2. assert (N2 : ~ In y a1) by (intros X; apply NoDup_remove_2 in ND2; apply ND2; apply in_or_app; left; exact X).
    clear - E N1 N2. revert c1 E N1. induction a1 as [|a a1 IH]; intros c1 E N1; destruct c1 as [|c c1]; cbn [app] in E.
    - reflexivity.
    - injection E as E _. exfalso. apply N1. left. symmetry. exact E.
    - injection E as E _. exfalso. apply N2. left. exact E.
    - injection E as -> E. f_equal. apply IH; [intros X; apply N2; right; exact X|exact E|intros X; apply N1; right; exact X]. }
  subst c1. apply in_or_app. left. exact I1.
Qed.
Lemma mono_sib y z cb rest : (match cb with Some Adj => False | _ => True end) -> y = z \/ related h Sib y z -> left_sat y cb rest -> left_sat z cb rest.
Proof.
  intros D [-> | A] H; [exact H|]. destruct rest as [|[cb' c] rest]; [exact I|]. cbn [SelChainProofs.left_sat] in *. destruct H as [w [R [S L]]]. exists w. split; [|split; [exact S|exact L]].
  destruct (sib_parent _ _ A) as [p [P1 P2]]. destruct cb as [[]|]; cbn [related] in *; try contradiction.
  - destruct R as [q [Q1 Q2]]. exists p. split; [exact P1|]. assert (q = p) as -> by congruence. exact Q2.
  - congruence.
  - exact (sib_trans w y z R A).
Qed.

(* parts joined by a descendant combinator are apart; [R] stands right of the chain *)
Fixpoint apart (R : compound) (cb : option comb) (rest : list (option comb * compound)) : Prop :=
  match rest with
  | [] => True
  | (cb', c) :: t => (cb = Some Desc -> forall x, ~ (sc c x /\ sc R x)) /\ apart c cb' t
  end.
Lemma exact_lookup c s s' : (forall n, lookup (cid c, level, n) (anc_cache s') = lookup (cid c, level, n) (anc_cache s)) -> anc_exact_for c s -> anc_exact_for c s'.
Proof. intros E H n r L. rewrite E in L. exact (H n r L). Qed.

Lemma left_exact rest : forall R x cb st b st', sc R x -> linked cb rest -> parts_ok rest -> NoDup (ids rest) -> nearest_suffices (chain cb rest) = true ->
  (forall p, In p rest -> anc_exact_for (snd p) st) -> prev_exact st -> match_left h over level deeper x cb rest st = MOk b st' ->
  (b = true <-> left_sat x cb rest) /\ prev_exact st' /\
  (forall i d n, ~ In i (ids rest) -> lookup (i, d, n) (anc_cache st') = lookup (i, d, n) (anc_cache st)) /\
  (apart R cb rest -> forall p, In p rest -> anc_exact_for (snd p) st').
Proof.
  induction rest as [|[cb' c] rest IH]; intros R x cb st b st' SR LK PO ND G AE PE E; cbn [match_left] in E.
  - injection E as <- <-. split; [cbn; tauto|]. split; [exact PE|]. split; [reflexivity|]. intros _ p [].
  - cbn [linked] in LK. destruct LK as [Ncb LK]. pose proof (parts_tl _ _ _ PO) as PO'. destruct (PO _ (or_introl eq_refl)) as [K A]. cbn [snd] in K, A.
    cbn [ids map snd] in ND. apply NoDup_cons_iff in ND. destruct ND as [Nc ND]. fold (ids rest) in Nc, ND.
    pose proof (AE _ (or_introl eq_refl)) as AEc. cbn [snd] in AEc.
    assert (AE' : forall p, In p rest -> anc_exact_for (snd p) st) by (intros p Hp; apply AE; right; exact Hp).
    assert (NI : forall p, In p rest -> cid (snd p) <> cid c) by (intros p Hp Q; apply Nc; rewrite <- Q; unfold ids; apply in_map_iff; exists p; auto).
    assert (Ex : is_element h x) by apply SR.
    assert (CH : forall k, chain (Some k) ((cb', c) :: rest) = k :: chain cb' rest) by reflexivity.
    (* what is left to do once the next node [z] is known *)
    assert (GO : forall z s1, sc c z -> prev_exact s1 -> (forall p, In p rest -> anc_exact_for (snd p) s1) ->
      (forall i d n, i <> cid c -> lookup (i, d, n) (anc_cache s1) = lookup (i, d, n) (anc_cache st)) ->
      (cb = Some Desc -> forall w, ~ (sc c w /\ sc R w)) \/ True ->
      nearest_suffices (chain cb' rest) = true -> match_left h over level deeper z cb' rest s1 = MOk b st' ->
      (b = true <-> left_sat z cb' rest) /\ prev_exact st' /\
      (forall i d n, ~ In i (ids ((cb', c) :: rest)) -> lookup (i, d, n) (anc_cache st') = lookup (i, d, n) (anc_cache st)) /\
      (anc_exact_for c s1 -> apart R cb ((cb', c) :: rest) -> forall p, In p ((cb', c) :: rest) -> anc_exact_for (snd p) st')).
    { intros z s1 Sz PE1 AE1 FR _ G1 E1. destruct (IH c z cb' s1 b st' Sz LK PO' ND G1 AE1 PE1 E1) as [B1 [B2 [B3 B4]]]. split; [exact B1|]. split; [exact B2|]. split.
      - intros i d n Hi. cbn [ids map snd] in Hi. rewrite B3 by (intros X; apply Hi; right; exact X). apply FR. intros ->. apply Hi. left. reflexivity.
      - intros Ec [_ Ap] p [<- | Hp]; [|exact (B4 Ap p Hp)]. cbn [snd]. apply (exact_lookup c s1); [|exact Ec]. intros n. apply B3. exact Nc. }
    (* nothing found *)
    assert (STOP : forall s1, prev_exact s1 -> (forall i d n, i <> cid c -> lookup (i, d, n) (anc_cache s1) = lookup (i, d, n) (anc_cache st)) ->
      (apart R cb ((cb', c) :: rest) -> anc_exact_for c s1) -> ~ left_sat x cb ((cb', c) :: rest) ->
      (false = true <-> left_sat x cb ((cb', c) :: rest)) /\ prev_exact s1 /\
      (forall i d n, ~ In i (ids ((cb', c) :: rest)) -> lookup (i, d, n) (anc_cache s1) = lookup (i, d, n) (anc_cache st)) /\
      (apart R cb ((cb', c) :: rest) -> forall p, In p ((cb', c) :: rest) -> anc_exact_for (snd p) s1)).
    { intros s1 PE1 FR Ec NS. split; [split; [intros Q; discriminate Q|intros Q; contradiction]|]. split; [exact PE1|]. split.
      - intros i d n Hi. apply FR. intros ->. apply Hi. left. reflexivity.
      - intros Ap p [<- | Hp]; [exact (Ec Ap)|]. apply (exact_lookup _ st); [|auto]. intros n. apply FR. apply NI. exact Hp. }
    destruct cb as [[]|]; [| | | |contradiction].
    + rewrite CH in G. cbn [nearest_suffices] in G. unfold bind in E. destruct (closest h over level deeper x c st) as [r s1|e] eqn:Cl; [|discriminate E].
      destruct (closest_exact h FF FN DB over level deeper deeper_keeps deeper_exact ci _ _ _ _ _ K A AEc Cl) as [C1 [C2 [C3 C4]]].
      assert (PE1 : prev_exact s1) by (intros p i d w; rewrite C1; apply PE).
      assert (NX : apart R (Some Desc) ((cb', c) :: rest) -> anc_exact_for c s1) by (intros [Ap _]; apply C4; intros Q; exact (Ap eq_refl x (conj Q SR))).
      destruct r as [z|].
      * destruct C2 as [q [Q1 [Q2 [Q3 Q4]]]].
        assert (G1 : nearest_suffices (chain cb' rest) = true) by (destruct (chain cb' rest) as [|k t]; [reflexivity|]; cbn [forallb] in G; apply andb_true_iff in G; destruct G as [G G2]; destruct k; try discriminate G; exact G2).
        assert (AE1 : forall p, In p rest -> anc_exact_for (snd p) s1) by (intros p Hp; apply (exact_lookup _ st); [intros n; apply C3; apply NI; exact Hp|auto]).
        destruct (GO z s1 Q3 PE1 AE1 C3 (or_intror I) G1 E) as [B1 [B2 [B3 B4]]].
        split; [|split; [exact B2|split; [exact B3|intros Ap; exact (B4 (NX Ap) Ap)]]].
        rewrite B1. cbn [SelChainProofs.left_sat]. split.
        -- intros L. exists z. split; [exists q; auto|]. split; [exact Q3|exact L].
        -- intros [y [[q' [Y1 Y2]] [Y3 Y4]]]. assert (q' = q) as -> by congruence. apply (mono_above y z); [exact G|apply Q4; assumption|exact Y4].
      * injection E as <- <-. apply STOP; [exact PE1|exact C3|exact NX|]. intros [y [[q [Y1 Y2]] [Y3 _]]]. exact (C2 q y Y1 Y2 Y3).
    + rewrite CH in G. cbn [nearest_suffices] in G. change (par (cell_at h x)) with (parent h x) in E. destruct (parent h x) as [p|] eqn:P.
      2:{ injection E as <- <-. apply STOP; [exact PE|reflexivity|intros _; exact AEc|]. intros [y [Y _]]. cbn [related] in Y. congruence. }
      unfold bind in E. destruct (matches_compound h over deeper p c st) as [b1 s1|e] eqn:Mc; [|discriminate E].
      pose proof (compound_keeps h over deeper deeper_keeps _ _ (proj2 K) _ _ _ Mc) as C2.
      pose proof (compound_exact h FF FN DB over deeper deeper_exact _ _ (proj2 K) (or_intror A) _ _ _ Mc) as X2.
      assert (PE1 : prev_exact s1) by (intros q i d w; rewrite (caches_prev _ _ C2); apply PE).
      assert (FR : forall i d n, i <> cid c -> lookup (i, d, n) (anc_cache s1) = lookup (i, d, n) (anc_cache st)) by (intros; rewrite (caches_anc _ _ C2); reflexivity).
      assert (AEk : forall c0, anc_exact_for c0 st -> anc_exact_for c0 s1) by (intros c0; apply exact_lookup; intros n; rewrite (caches_anc _ _ C2); reflexivity).
      destruct b1.
      * assert (Sp : sc c p) by (apply X2; reflexivity).
        destruct (GO p s1 Sp PE1 (fun q Hq => AEk _ (AE' q Hq)) FR (or_intror I) G E) as [B1 [B2 [B3 B4]]].
        split; [|split; [exact B2|split; [exact B3|intros Ap; exact (B4 (AEk _ AEc) Ap)]]].
        rewrite B1. cbn [SelChainProofs.left_sat related]. split; [intros L; exists p; auto|]. intros [y [Y1 [Y2 Y3]]]. assert (y = p) as -> by congruence. exact Y3.
      * injection E as <- <-. apply STOP; [exact PE1|exact FR|intros _; exact (AEk _ AEc)|]. intros [y [Y1 [Y2 _]]]. cbn [related] in Y1. assert (y = p) as -> by congruence. apply X2 in Y2. discriminate Y2.
    + rewrite CH in G. cbn [nearest_suffices] in G. destruct (match par (cell_at h x) with None => None | Some p => previous_sibling h p x end) as [y|] eqn:P.
      2:{ injection E as <- <-. apply STOP; [exact PE|reflexivity|intros _; exact AEc|]. intros [y [Y1 [Y2 _]]].
          pose proof (proj2 (prev_sib_spec h F FN x y Ex) (conj (proj1 Y2) Y1)). congruence. }
      pose proof P as P0. apply (prev_sib_spec h F FN x y Ex) in P. destruct P as [Ey Ry].
      unfold bind in E. destruct (tick over st) as [[] s0|e] eqn:T; [|discriminate E]. apply keeps_tick in T. destruct (matches_compound h over deeper y c s0) as [b1 s1|e] eqn:Mc; [|discriminate E].
      pose proof (compound_keeps h over deeper deeper_keeps _ _ (proj2 K) _ _ _ Mc) as C2. rewrite T in C2.
      pose proof (compound_exact h FF FN DB over deeper deeper_exact _ _ (proj2 K) (or_introl Ey) _ _ _ Mc) as X2.
      assert (PE1 : prev_exact s1) by (intros q i d w; rewrite (caches_prev _ _ C2); apply PE).
      assert (FR : forall i d n, i <> cid c -> lookup (i, d, n) (anc_cache s1) = lookup (i, d, n) (anc_cache st)) by (intros; rewrite (caches_anc _ _ C2); reflexivity).
      assert (AEk : forall c0, anc_exact_for c0 st -> anc_exact_for c0 s1) by (intros c0; apply exact_lookup; intros n; rewrite (caches_anc _ _ C2); reflexivity).
      assert (U : forall z, is_element h z -> related h Adj z x -> z = y) by (intros z Ez Rz; pose proof (proj2 (prev_sib_spec h F FN x z Ex) (conj Ez Rz)); congruence).
      destruct b1.
      * assert (Sp : sc c y) by (apply X2; reflexivity).
        destruct (GO y s1 Sp PE1 (fun q Hq => AEk _ (AE' q Hq)) FR (or_intror I) G E) as [B1 [B2 [B3 B4]]].
        split; [|split; [exact B2|split; [exact B3|intros Ap; exact (B4 (AEk _ AEc) Ap)]]].
        rewrite B1. cbn [SelChainProofs.left_sat]. split; [intros L; exists y; auto|]. intros [z [Y1 [Y2 Y3]]]. rewrite (U z (proj1 Y2) Y1) in Y3. exact Y3.
      * injection E as <- <-. apply STOP; [exact PE1|exact FR|intros _; exact (AEk _ AEc)|]. intros [z [Y1 [Y2 _]]]. rewrite (U z (proj1 Y2) Y1) in Y2. apply X2 in Y2. discriminate Y2.
    + rewrite CH in G. cbn [nearest_suffices] in G. unfold bind in E. destruct (previous_matching h over level deeper x c st) as [r s1|e] eqn:Pm; [|discriminate E].
      destruct (previous_spec h FF FN DB over level deeper deeper_keeps deeper_exact ci _ _ _ _ _ K Ex PE Pm) as [S1 [S2 S3]].
      assert (FR : forall i d n, i <> cid c -> lookup (i, d, n) (anc_cache s1) = lookup (i, d, n) (anc_cache st)) by (intros; rewrite S1; reflexivity).
      assert (AEk : forall c0, anc_exact_for c0 st -> anc_exact_for c0 s1) by (intros c0; apply exact_lookup; intros n; rewrite S1; reflexivity).
      assert (G1 : nearest_suffices (chain cb' rest) = true /\ match cb' with Some Adj => False | _ => True end).
      { unfold chain in *. destruct cb' as [[]|]; cbn [comb_list app] in *; try discriminate G; try (split; [exact G|exact I]).
        split; [|exact I]. destruct rest as [|[] ]; [reflexivity|]. cbn [linked] in LK. destruct LK as [LK _]. contradiction. }
      destruct r as [z|].
      * destruct S3 as [R1 [R2 R3]].
        destruct (GO z s1 R2 S2 (fun q Hq => AEk _ (AE' q Hq)) FR (or_intror I) (proj1 G1) E) as [B1 [B2 [B3 B4]]].
        split; [|split; [exact B2|split; [exact B3|intros Ap; exact (B4 (AEk _ AEc) Ap)]]].
        rewrite B1. cbn [SelChainProofs.left_sat]. split; [intros L; exists z; auto|]. intros [y [Y1 [Y2 Y3]]]. apply (mono_sib y z); [apply G1|apply R3; assumption|exact Y3].
      * injection E as <- <-. apply STOP; [exact S2|exact FR|intros _; exact (AEk _ AEc)|]. intros [y [Y1 [Y2 _]]]. exact (S3 y Y1 Y2).
Qed.

(* ---- an alternative ---- *)
Definition cids (c : complex) : list nat := map (fun p => cid (snd p)) c.
Definition all_exact (c : complex) (st : qstate) : Prop := forall p, In p c -> anc_exact_for (snd p) st.
Definition c_apart (c : complex) : Prop := forall a p q b, c = (a ++ p :: q :: b)%list -> fst q = Some Desc -> forall x, ~ (sc (snd p) x /\ sc (snd q) x).
Lemma apart_rev rest : forall cb last, (forall a p q b, rev ((cb, last) :: rest) = (a ++ p :: q :: b)%list -> fst q = Some Desc -> forall x, ~ (sc (snd p) x /\ sc (snd q) x)) -> apart last cb rest.
Proof.
  induction rest as [|[cb' c] rest IH]; intros cb last H; [exact I|]. cbn [apart]. split.
  - intros ->. apply (H (rev rest) (cb', c) (Some Desc, last) []); [|reflexivity]. cbn [rev]. rewrite <- app_assoc. reflexivity.
  - apply IH. intros a p q b E. apply (H a p q (b ++ [(cb, last)])%list). cbn [rev] in *. rewrite E, <- app_assoc. reflexivity.
Qed.
Lemma complex_exact c x st b st' : well_formed c = true -> (forall p, In p c -> known (snd p)) -> (forall p, In p (removelast c) -> anchored (snd p) = true) ->
  NoDup (cids c) -> nearest_suffices (combs c) = true -> is_element h x -> all_exact c st -> prev_exact st ->
  matches_complex h over level deeper x c st = MOk b st' ->
  (b = true <-> sat_complex h c x) /\ prev_exact st' /\ (forall i d n, ~ In i (cids c) -> lookup (i, d, n) (anc_cache st') = lookup (i, d, n) (anc_cache st)) /\ (c_apart c -> all_exact c st').
Proof.
  intros W K A ND G Ex AE PE E. unfold matches_complex in E. destruct (rev c) as [|[cb last] rest] eqn:R.
  { apply (f_equal (@rev _)) in R. rewrite rev_involutive in R. subst c. discriminate W. }
  assert (LK : linked cb rest) by (eapply wf_linked; eauto).
  assert (Ec : c = (rev rest ++ [(cb, last)])%list) by (rewrite <- (rev_involutive c), R; reflexivity).
  assert (PO : parts_ok rest).
  { intros p Hp. rewrite Ec in A, K. rewrite removelast_app in A by discriminate. cbn [removelast] in A. rewrite app_nil_r in A. split.
    - apply K. apply in_or_app. left. apply -> in_rev. exact Hp.
    - apply A. apply -> in_rev. exact Hp. }
  assert (INr : forall p, In p rest -> In p c) by (intros p Hp; rewrite Ec; apply in_or_app; left; apply -> in_rev; exact Hp).
  assert (Kl : known last) by (apply (K (cb, last)); rewrite Ec; apply in_or_app; right; left; reflexivity).
  assert (ND' : NoDup (cid last :: ids rest)).
  { apply NoDup_rev in ND. unfold cids in ND. rewrite <- map_rev, R in ND. exact ND. }
  apply NoDup_cons_iff in ND'. destruct ND' as [Nl NDr].
  assert (IDS : forall i, In i (ids rest) -> In i (cids c)) by (intros i Hi; unfold ids in Hi; apply in_map_iff in Hi; destruct Hi as [p [<- Hp]]; unfold cids; apply in_map_iff; exists p; auto).
  assert (Gc : nearest_suffices (chain cb rest) = true) by (unfold combs in G; rewrite R in G; exact G).
  unfold bind in E. destruct (matches_compound h over deeper x last st) as [b1 s1|e] eqn:Mc; [|discriminate E].
  pose proof (compound_keeps h over deeper deeper_keeps _ _ (proj2 Kl) _ _ _ Mc) as C2.
  pose proof (compound_exact h FF FN DB over deeper deeper_exact _ _ (proj2 Kl) (or_introl Ex) _ _ _ Mc) as X2.
  assert (PE1 : prev_exact s1) by (intros q i d w; rewrite (caches_prev _ _ C2); apply PE).
  assert (AEk : forall c0, anc_exact_for c0 st -> anc_exact_for c0 s1) by (intros c0; apply exact_lookup; intros n; rewrite (caches_anc _ _ C2); reflexivity).
  assert (SR : sat_complex h c x <-> sc last x /\ left_sat x cb rest) by (rewrite Ec; eapply (sat_rev h); eauto).
  destruct b1.
  - assert (Sl : sc last x) by (apply X2; reflexivity).
    destruct (left_exact rest last x cb s1 b st' Sl LK PO NDr Gc (fun p Hp => AEk _ (AE p (INr p Hp))) PE1 E) as [B1 [B2 [B3 B4]]].
    split; [rewrite B1, SR; tauto|]. split; [exact B2|]. split; [intros i d n Hi; rewrite B3 by (intros Q; apply Hi; auto); rewrite (caches_anc _ _ C2); reflexivity|].
    intros Ap p Hp. rewrite Ec in Hp. apply in_app_or in Hp. destruct Hp as [Hp | [<- | []]].
    + apply B4; [apply apart_rev; intros a p' q' b' Q; exact (Ap a p' q' b' (eq_trans Ec Q))|apply in_rev; exact Hp].
    + cbn [snd]. apply (exact_lookup last s1); [intros n; apply B3; exact Nl|]. apply AEk. apply (AE (cb, last)). rewrite Ec. apply in_or_app. right. left. reflexivity.
  - injection E as <- <-. split; [rewrite SR; split; [intros Q; discriminate Q|intros [Q _]; apply X2 in Q; discriminate Q]|]. split; [exact PE1|].
    split; [intros i d n _; rewrite (caches_anc _ _ C2); reflexivity|]. intros _ p Hp. apply AEk. auto.
Qed.
End S.
