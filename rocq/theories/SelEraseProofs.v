(* Proofs: the numbers of compounds do not matter for what a selector means. *)
From Verif Require Import Str SerializerModel SanModel DomModel DomSpec SelModel SelSpec SelMatchProofs SelTextSpec SelTextProofs.
Open Scope nat_scope.

Section Ind.
Variable P : simple -> Prop.
Hypothesis step : forall s, match s with SNot _ (Some l) => forall c p t, In c l -> In p c -> In t (simples (snd p)) -> P t | _ => True end -> P s.
Fixpoint simple_ind2 (s : simple) : P s.
Proof.
  apply step. destruct s as [ | | | | | |a [l|]]; try exact I.
  induction l as [|c l IHl]; [intros ? ? ? []|]. intros c' p t [<- | Hc]; [|exact (IHl c' p t Hc)]. clear IHl. revert p t.
  induction c as [|[o [i ss]] c IHc]; [intros ? ? []|]. intros p t [<- | Hp]; [|exact (IHc p t Hp)]. clear IHc. cbn [snd simples]. revert t.
  induction ss as [|s ss IHs]; [intros ? []|]. intros t [<- | Ht]; [apply simple_ind2|exact (IHs t Ht)].
Qed.
End Ind.

Section H.
Variable h : heap.
Lemma ends_erase l : (forall p x, In p l -> (sat_compound h (erase_compound (snd p)) x <-> sat_compound h (snd p) x)) -> forall ok ok' x, (forall y, ok y <-> ok' y) ->
  (ends_at h (sat_compound h) (map erase_part l) ok x <-> ends_at h (sat_compound h) l ok' x).
Proof.
  induction l as [|[cb c] l IH]; intros H ok ok' x E; cbn [map ends_at]; [apply E|]. unfold erase_part at 1. cbn [fst snd]. apply IH; [intros p y Hp; apply H; right; exact Hp|].
  intros y. rewrite (H (cb, c) y) by (left; reflexivity). cbn [snd]. destruct cb as [cb|]; [|tauto]. split; intros [Q1 [z [Q2 Q3]]]; (split; [exact Q1|]); exists z; (split; [exact Q2|]); apply E; exact Q3.
Qed.
Lemma sat_erase_simple s : forall x, sat_simple h (erase s) x <-> sat_simple h s x.
Proof.
  induction s as [s IH] using simple_ind2. intros x. destruct s as [ | | | | | |a [l|]]; try reflexivity. rewrite erase_not, !(sat_not h (fun _ => false)). apply not_iff_compat. unfold sat, erase_selector.
  assert (G : forall c, In c l -> (sat_complex h (map (fun p => (fst p, erase_compound (snd p))) c) x <-> sat_complex h c x)).
  { intros c Hc. apply (ends_erase c); [|reflexivity]. intros p y Hp. unfold sat_compound, erase_compound. cbn [simples].
    split; intros [Q1 Q2]; (split; [exact Q1|]); intros t Ht.
    - apply (IH c p t Hc Hp Ht). apply Q2. apply in_map. exact Ht.
    - apply in_map_iff in Ht. destruct Ht as [t' [<- Ht]]. apply (IH c p t' Hc Hp Ht). apply Q2. exact Ht. }
  split.
  - intros [c' [H1 H2]]. apply in_map_iff in H1. destruct H1 as [c [<- Hc]]. exists c. split; [exact Hc|]. apply (G c Hc). exact H2.
  - intros [c [Hc H2]]. eexists. split; [apply in_map; exact Hc|]. apply (G c Hc). exact H2.
Qed.
Lemma sat_erase s x : sat h (erase_selector s) x <-> sat h s x.
Proof.
  assert (G : forall c, sat_complex h (map (fun p => (fst p, erase_compound (snd p))) c) x <-> sat_complex h c x).
  { intros c. apply (ends_erase c); [|reflexivity]. intros p y Hp. unfold sat_compound, erase_compound. cbn [simples].
    split; intros [Q1 Q2]; (split; [exact Q1|]); intros t Ht.
    - apply sat_erase_simple. apply Q2. apply in_map. exact Ht.
    - apply in_map_iff in Ht. destruct Ht as [t' [<- Ht]]. apply sat_erase_simple. apply Q2. exact Ht. }
  unfold sat, erase_selector. split.
  - intros [c' [H1 H2]]. apply in_map_iff in H1. destruct H1 as [c [<- Hc]]. exists c. split; [exact Hc|]. apply (G c). exact H2.
  - intros [c [Hc H2]]. eexists. split; [apply in_map; exact Hc|]. apply (G c). exact H2.
Qed.
End H.
Lemma anchors_erase s : anchors (erase s) = anchors s. Proof. destruct s as [ | | | | | |a [l|]]; reflexivity. Qed.
Lemma anchored_erase c : anchored (erase_compound c) = anchored c.
Proof. unfold anchored, erase_compound. cbn [simples]. induction (simples c) as [|s l IH]; [reflexivity|]. cbn [map existsb]. rewrite anchors_erase, IH. reflexivity. Qed.
Lemma nots_erase s : simple_nots (erase s) = simple_nots s.
Proof.
  induction s as [s IH] using simple_ind2. destruct s as [ | | | | | |a [l|]]; try reflexivity. cbn [erase simple_nots]. induction l as [|c l IHl]; [reflexivity|]. cbn [map forallb]. rewrite IHl by (intros c' p t Hc; apply IH; right; exact Hc). f_equal.
  destruct c as [|[[cb|] [i ss]] [|q c]]; try reflexivity. cbn [map fst snd].
  assert (G : forall t, In t ss -> simple_nots (erase t) = simple_nots t) by (intros t Ht; apply (IH [(None, Compound i ss)] (None, Compound i ss) t); [left; reflexivity|left; reflexivity|exact Ht]).
  clear - G. induction ss as [|s ss IHs]; [reflexivity|]. cbn [map forallb]. rewrite (G s) by (left; reflexivity). f_equal. apply IHs. intros t Ht. apply G. right. exact Ht.
Qed.
Lemma parts_erase s : parts (erase_selector s) = map erase_compound (parts s).
Proof. unfold parts, erase_selector. rewrite concat_map, !map_map. f_equal. apply map_ext. intros c. rewrite !map_map. reflexivity. Qed.
Lemma only_nots_erase s : only_simple_nots (erase_selector s) -> only_simple_nots s.
Proof.
  intros H c Hc. specialize (H (erase_compound c)). rewrite parts_erase in H. specialize (H (in_map _ _ _ Hc)). unfold erase_compound in H. cbn [simples] in H. rewrite forallb_forall in *. intros t Ht. rewrite <- nots_erase. apply H. apply in_map. exact Ht.
Qed.
Lemma removelast_map {A B} (f : A -> B) l : removelast (map f l) = map f (removelast l).
Proof. induction l as [|a [|b l] IH]; [reflexivity|reflexivity|]. cbn [map removelast] in *. rewrite IH. reflexivity. Qed.
Lemma left_erase s : left_parts_anchored (erase_selector s) -> left_parts_anchored s.
Proof.
  intros H c Hc p Hp. rewrite <- anchored_erase. apply (H (map erase_part c)  (in_map _ _ _ Hc) (erase_part p)). rewrite removelast_map. apply in_map. exact Hp.
Qed.
Lemma no_comment_erase s : no_comment (erase_selector s) -> no_comment s.
Proof.
  intros H c a Hc Q. apply (H (erase_compound c) a); [rewrite parts_erase; apply in_map; exact Hc|]. unfold erase_compound. cbn [simples]. apply (in_map erase) in Q. exact Q.
Qed.
Lemma nearest_erase s : nearest_ok (erase_selector s) -> nearest_ok s.
Proof.
  intros H c Hc. specialize (H (map erase_part c) (in_map _ _ _ Hc)). unfold combs in *. rewrite <- map_rev, map_map in H. exact H.
Qed.
Lemma compound_erase h c x : sat_compound h (erase_compound c) x <-> sat_compound h c x.
Proof.
  unfold sat_compound, erase_compound. cbn [simples]. split; intros [Q1 Q2]; (split; [exact Q1|]); intros t Ht.
  - apply sat_erase_simple. apply Q2. apply in_map. exact Ht.
  - apply in_map_iff in Ht. destruct Ht as [t' [<- Ht]]. apply sat_erase_simple. apply Q2. exact Ht.
Qed.
Lemma apart_erase h s : descendants_apart h (erase_selector s) -> descendants_apart h s.
Proof.
  intros H c Hc a p q b E F x [X1 X2]. apply (H (map erase_part c) (in_map _ _ _ Hc) (map erase_part a) (erase_part p) (erase_part q) (map erase_part b)) with (x := x).
  - rewrite E, map_app. reflexivity.
  - exact F.
  - split; apply compound_erase; assumption.
Qed.
