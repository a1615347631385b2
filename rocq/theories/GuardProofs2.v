(* PROOFS for C65, part 2: every event keeps the account *)
From Coq Require Import List Arith Bool String Lia.
From Verif Require Import Str StrFacts SerTreeProofs.
From Verif Require Import FinishModel AaaModel ReconModel GuardModel GuardSpec GuardProofs.
From Verif Require AttrModel AttrProofs PropertiesAttr.
Import ListNotations.
Open Scope string_scope. Open Scope list_scope. Open Scope nat_scope.

Section guard.
Variable allowed : str -> bool.
Variable acts : str -> AttrModel.action.
Variable strict : bool.
Variable strip : str -> str.
Variable adjust : space -> attrs -> attrs.
Variable context : option nat.
Hypothesis Pol : plain_policy allowed acts.
Notation snd_ := (sound acts).
Notation insert_sanitized := (insert_sanitized allowed acts strip adjust context).
Notation reconstruct := (reconstruct allowed acts strip adjust context).
Notation advance := (advance allowed acts strip adjust context).
Notation namespace_for := (namespace_for context).
Notation accounted := (accounted allowed acts).
Notation sanitized := (sanitized allowed acts).

Lemma sanitize_sound : forall name a, Forall (snd_ name) (AttrModel.sanitize_parsed strip (acts name) a).
Proof.
  intros name a. induction a as [|[k v] a IH]; cbn [AttrModel.sanitize_parsed]; [constructor|]. destruct (in_strs k (AttrModel.allowed (acts name))) eqn:E; [|exact IH].
  destruct (AttrModel.url (acts name) k (strip v)) as [w|] eqn:W; [|exact IH]. constructor; [|exact IH]. split; [now apply in_strs_In in E|]. exists (strip v). exact W.
Qed.
Lemma fused_sound : forall name src a self rest closed, allowed name = true -> AttrModel.parse_attrs_for_action strict strip (acts name) src = Some (a, self, rest, closed) -> Forall (snd_ name) a.
Proof.
  intros name src a self rest closed A H. rewrite Forall_forall. intros [k v] I. destruct (PropertiesAttr.C41_safe _ _ _ _ _ _ _ _ H k v I) as [[Q W]|[Q W]]; [split; assumption|].
  destruct (Pol name A) as [P1 P2]. destruct W as [W|W]; [congruence|]. destruct (Q (P2 k W)).
Qed.

Definition entry_ok (s : gst) (n : str) (t : nat) : Prop := in_strs n formatting_names = true /\ t < next (base s) /\ (allowed n = true -> Forall (snd_ n) (kept s t)).
Definition good (s : gst) : Prop := accounted s /\ listed (entry_ok s) (active (base s)).

(* changes of stack and list only *)
Lemma good_stack : forall l s, good s -> good (set_stack l s).
Proof. intros l s [A B]. split; [exact A|exact B]. Qed.
Lemma good_active : forall l s, good s -> listed (entry_ok s) l -> good (set_active l s).
Proof. intros l s [A B] H. split; [exact A|exact H]. Qed.

Lemma make_good : forall name ns a push un dr s, good s ->
  (ns = Html /\ allowed name = true /\ Forall (snd_ name) a) \/ In (next (base s)) dr \/ In (next (base s)) un -> good (make name ns a push un dr s).
Proof.
  intros name ns a push un dr s [A B] H. split.
  - intros x L. cbn [make base next] in L. destruct (Nat.eq_dec x (next (base s))) as [->|N].
    + destruct H as [(-> & H1 & H2)|[H|H]].
      * left. exists name. cbn [make base tags attr]. unfold upd. rewrite Nat.eqb_refl. auto.
      * right. left. cbn. apply in_or_app. now right.
      * right. right. cbn. apply in_or_app. now right.
    + destruct (A x ltac:(lia)) as [(n & T & U & V)|[D|D]].
      * left. exists n. cbn [make base tags attr]. unfold upd. destruct (Nat.eqb_spec x (next (base s))) as [E|_]; [contradiction|]. auto.
      * right. left. cbn. apply in_or_app. now left.
      * right. right. cbn. apply in_or_app. now left.
  - intros e I. cbn [make base active] in I. destruct (B e I) as (Q1 & Q2 & Q3). split; [exact Q1|]. split; [cbn; lia|exact Q3].
Qed.
Lemma compiled_good : forall name a s, good s -> (allowed name = true -> Forall (snd_ name) a) -> good (insert_compiled allowed name a s).
Proof. intros name a s Gd H. unfold insert_compiled. apply make_good; [exact Gd|]. destruct (allowed name) eqn:E; [left; auto|right; right; now left]. Qed.

(* namespace_for changes the stack at most *)
Lemma ns_state : forall name a s, exists l, snd (namespace_for name a s) = set_stack l s.
Proof.
  intros name a s. assert (K : s = set_stack (stack (base s)) s) by (destruct s as [[] ? ? ? ?]; reflexivity). unfold GuardModel.namespace_for.
  repeat match goal with |- context [if ?c then _ else _] => destruct c end; cbn [snd]; try (exists (stack (base s)); exact K). eexists. reflexivity.
Qed.
Lemma sanitized_parts : forall tpl name a self parent s ns s1, namespace_for name a s = (ns, s1) ->
  exists nm at' push un dr, insert_sanitized tpl name a self parent s = make nm ns at' push un dr s1
    /\ (ns = Html -> nm = name /\ push = negb (in_strs name void_names) /\ (allowed name = true -> Forall (snd_ name) at'))
    /\ ((ns = Html /\ allowed nm = true) \/ In (next (base s1)) un).
Proof.
  intros tpl name a self parent s ns s1 E. unfold GuardModel.insert_sanitized. rewrite E. destruct ns; cbv zeta.
  - do 5 eexists. split; [reflexivity|]. split.
    + intros _. split; [reflexivity|]. split; [reflexivity|]. intros A. rewrite A. apply sanitize_sound.
    + destruct (allowed name) eqn:A; [left; auto|right; now left].
  - do 5 eexists. split; [reflexivity|]. split; [discriminate|]. right. now left.
  - do 5 eexists. split; [reflexivity|]. split; [discriminate|]. right. now left.
Qed.
Lemma insert_good : forall tpl name a self parent s, good s ->
  good (insert_sanitized tpl name a self parent s) /\ next (base (insert_sanitized tpl name a self parent s)) = S (next (base s))
  /\ active (base (insert_sanitized tpl name a self parent s)) = active (base s) /\ kept (insert_sanitized tpl name a self parent s) = kept s.
Proof.
  intros tpl name a self parent s Gd. destruct (namespace_for name a s) as [ns s1] eqn:E. destruct (ns_state name a s) as (l & El). rewrite E in El. cbn [snd] in El.
  destruct (sanitized_parts tpl name a self parent s ns s1 E) as (nm & at' & push & un & dr & Q & H1 & H2). rewrite Q. subst s1. split; [|repeat split].
  apply make_good; [now apply good_stack|]. destruct H2 as [[-> A]|H2]; [|auto]. destruct (H1 eq_refl) as (-> & _ & H3). left. auto.
Qed.
(* an HTML insertion *)
Lemma insert_html : forall tpl name a self parent s, fst (namespace_for name a s) = Html ->
  let s' := insert_sanitized tpl name a self parent s in
  (allowed name = true -> Forall (snd_ name) (attr s' (next (base s)))) /\ (in_strs name void_names = false -> cur s' = next (base s) /\ foreign (tags (base s') (cur s')) = false).
Proof.
  intros tpl name a self parent s Hns. destruct (namespace_for name a s) as [ns s1] eqn:E. cbn [fst] in Hns. subst ns. destruct (ns_state name a s) as (l & El). rewrite E in El. cbn [snd] in El.
  destruct (sanitized_parts tpl name a self parent s Html s1 E) as (nm & at' & push & un & dr & Q & H1 & H2). cbv zeta. rewrite Q. destruct (H1 eq_refl) as (-> & -> & H3). subst s1. split.
  - intros A. cbn [make attr set_stack set_base base next]. unfold upd. rewrite Nat.eqb_refl. auto.
  - intros V. rewrite V. cbn [negb]. assert (C : cur (make name Html at' true un dr (set_stack l s)) = next (base s)) by (unfold cur, make; cbn [base stack]; unfold top; now rewrite last_last).
    split; [exact C|]. rewrite C. cbn [make base tags set_stack set_base next]. unfold upd. now rewrite Nat.eqb_refl.
Qed.

(* formatting elements *)
Lemma formatting_html : forall name, in_strs name formatting_names = true -> by_name name = Html /\ in_strs name (map u ["mglyph"; "malignmark"]) = false /\ str_eqb name (u "svg") = false /\ in_strs name void_names = false.
Proof.
  intros name H. apply in_strs_In in H. unfold formatting_names in H. cbn [map In] in H.
  repeat (destruct H as [<-|H]; [vm_compute; repeat split; reflexivity|]). destruct H.
Qed.
Lemma html_text_same : forall n m s, in_strs n formatting_names = true -> in_strs m formatting_names = true -> html_text n s = html_text m s.
Proof. intros n m s Hn Hm. unfold html_text. now rewrite (proj1 (proj2 (formatting_html n Hn))), (proj1 (proj2 (formatting_html m Hm))). Qed.
Lemma ns_html : forall name a s, in_strs name formatting_names = true -> html_text name s = true \/ breakout name a = true -> fst (namespace_for name a s) = Html.
Proof.
  intros name a s F H. destruct (formatting_html name F) as (B & M & Sv & _). unfold GuardModel.namespace_for, html_text in *. rewrite M, Sv in *. cbn [negb] in *. rewrite !andb_true_r in *.
  destruct (foreign (tags (base s) (cur s))) eqn:Fo; [|exact B]. cbn [negb orb] in H. destruct (html_point s (cur s)); [exact B|]. destruct (text_point s (cur s)); [exact B|].
  destruct H as [H|H]; [discriminate|]. rewrite H. destruct (tags (base s) (cur s)) as [n []]; cbn [fst snd]; try exact B. rewrite andb_false_r. exact B.
Qed.

Lemma advance_good : forall tpl k idx s s', good s -> advance tpl k idx s = Some s' -> good s' /\
  (forall name, in_strs name formatting_names = true -> html_text name s = true -> html_text name s' = true).
Proof.
  intros tpl. induction k as [|k IH]; intros idx s s' Gd H; cbn [GuardModel.advance] in H; destruct (nth_error (active (base s)) idx) as [sl|] eqn:E; try discriminate; try (injection H as <-; split; [exact Gd|auto]).
  destruct sl as [e|]; [|discriminate]. destruct (negb (e_live e)); [now apply IH in H|].
  destruct (insert_good tpl (e_name e) (kept s (e_token e)) false (cur s) s Gd) as (G1 & N1 & A1 & K1).
  pose proof (insert_html tpl (e_name e) (kept s (e_token e)) false (cur s) s) as HH. set (s1 := insert_sanitized _ _ _ _ _ _) in *. clearbody s1. cbv zeta in HH.
  assert (Ok : entry_ok s (e_name e) (e_token e)) by (apply (proj2 Gd); now apply nth_error_In in E).
  apply IH in H as [G2 T2].
  - split; [exact G2|]. intros name F Ht. apply T2; [exact F|]. destruct Ok as (Fe & _). rewrite (html_text_same name (e_name e) s F Fe) in Ht.
    assert (Nh : fst (namespace_for (e_name e) (kept s (e_token e)) s) = Html) by (apply ns_html; auto).
    destruct (HH Nh) as [_ Hc]. destruct (Hc (proj2 (proj2 (proj2 (formatting_html _ Fe))))) as [Q1 Q2].
    unfold html_text. change (cur (set_active _ s1)) with (cur s1). change (tags (base (set_active _ s1))) with (tags (base s1)). now rewrite Q2.
  - apply good_active; [exact G1|]. apply listed_put; [|exact (proj2 G1)]. cbn [e_name e_token]. destruct Ok as (O1 & O2 & O3). split; [exact O1|]. split; [lia|]. now rewrite K1.
Qed.
Lemma reconstruct_good : forall tpl s s', good s -> reconstruct tpl s = Some s' -> good s' /\
  (forall name, in_strs name formatting_names = true -> html_text name s = true -> html_text name s' = true).
Proof.
  intros tpl s s' Gd H. unfold GuardModel.reconstruct in H. destruct (last_index _ _) as [i|]; [|injection H as <-; auto]. destruct (nth_error (active (base s)) i) as [[e|]|]; try (injection H as <-; now auto).
  exact (advance_good _ _ _ _ _ Gd H).
Qed.

(* the clones *)
Lemma absorb_spec : forall o s, base (absorb allowed o s) = base s /\ kept (absorb allowed o s) = kept s /\ drops (absorb allowed o s) = drops s
  /\ (forall x, In x (unwraps s) -> In x (unwraps (absorb allowed o s)))
  /\ (forall x, (forall n t, ~ In (New x n t) o) -> attr (absorb allowed o s) x = attr s x)
  /\ (forall x n t, In (New x n t) o -> exists n' t', In (New x n' t') o /\ attr (absorb allowed o s) x = kept s t')
  /\ (forall x n t, In (New x n t) o -> allowed n = false -> In x (unwraps (absorb allowed o s))).
Proof.
  induction o as [|op o IH]; intros s; [repeat split; auto; intros x n t []|].
  assert (Skip : forall op, (forall x n t, op <> New x n t) -> absorb allowed (op :: o) s = absorb allowed o s) by (intros [] K; try reflexivity; destruct (K _ _ _ eq_refl)).
  destruct op as [x0 n0 t0| | | |].
  - cbn [absorb]. set (s1 := G _ _ _ _ _). destruct (IH s1) as (B & K & D & U & A1 & A2 & W). unfold s1 in B, K, D. cbn in B, K, D. repeat split; try assumption.
    + intros x H. apply U. unfold s1. cbn [unwraps]. destruct (allowed n0); [exact H|apply in_or_app; now left].
    + intros x H. rewrite A1 by (intros n t I; apply (H n t); now right). unfold s1. cbn [attr]. unfold upd. destruct (Nat.eqb_spec x x0) as [->|_]; [destruct (H n0 t0); now left|reflexivity].
    + intros x n t H. destruct (in_dec Nat.eq_dec x (map (fun o => match o with New y _ _ => y | _ => S x end) o)) as [I|I].
      * apply in_map_iff in I as ([y n' t'| | | |] & Ey & I); try (exfalso; lia). subst y. destruct (A2 x n' t' I) as (n2 & t2 & I2 & E2). exists n2, t2. split; [now right|exact E2].
      * assert (NI : forall n' t', ~ In (New x n' t') o) by (intros n' t' I'; apply I; apply in_map_iff; exists (New x n' t'); auto).
        destruct H as [H|H]; [|destruct (NI n t H)]. injection H as -> -> ->. exists n, t. split; [now left|]. rewrite A1 by exact NI. unfold s1. cbn [attr]. unfold upd. now rewrite Nat.eqb_refl.
    + intros x n t [H|H] Hn; [|now apply (W x n t)]. injection H as -> -> ->. apply U. unfold s1. cbn [unwraps]. rewrite Hn. apply in_or_app. right. now left.
  - rewrite Skip by discriminate. destruct (IH s) as (B & K & D & U & A1 & A2 & W). repeat split; try assumption.
    + intros x H. apply A1. intros n t I. apply (H n t). now right.
    + intros x n t [H|H]; [discriminate|]. destruct (A2 x n t H) as (n' & t' & I & E). exists n', t'. split; [now right|exact E].
    + intros x n t [H|H] Hn; [discriminate|]. now apply (W x n t).
  - rewrite Skip by discriminate. destruct (IH s) as (B & K & D & U & A1 & A2 & W). repeat split; try assumption.
    + intros x H. apply A1. intros n t I. apply (H n t). now right.
    + intros x n t [H|H]; [discriminate|]. destruct (A2 x n t H) as (n' & t' & I & E). exists n', t'. split; [now right|exact E].
    + intros x n t [H|H] Hn; [discriminate|]. now apply (W x n t).
  - rewrite Skip by discriminate. destruct (IH s) as (B & K & D & U & A1 & A2 & W). repeat split; try assumption.
    + intros x H. apply A1. intros n t I. apply (H n t). now right.
    + intros x n t [H|H]; [discriminate|]. destruct (A2 x n t H) as (n' & t' & I & E). exists n', t'. split; [now right|exact E].
    + intros x n t [H|H] Hn; [discriminate|]. now apply (W x n t).
  - rewrite Skip by discriminate. destruct (IH s) as (B & K & D & U & A1 & A2 & W). repeat split; try assumption.
    + intros x H. apply A1. intros n t I. apply (H n t). now right.
    + intros x n t [H|H]; [discriminate|]. destruct (A2 x n t H) as (n' & t' & I & E). exists n', t'. split; [now right|exact E].
    + intros x n t [H|H] Hn; [discriminate|]. now apply (W x n t).
Qed.
Lemma adopt_good : forall subject s s', good s -> adopt allowed subject s = Some s' -> good s'.
Proof.
  intros subject s s' [A B] H. unfold adopt in H. destruct (adoption_agency _ _ _ _) as [b|] eqn:E; [|discriminate]. injection H as <-.
  apply (adoption_ext (entry_ok s)) in E as [[N T _ (o & Eo & New1 & New2)] L]; [|exact B]. cbn [next tags ops active app] in *. rewrite Eo.
  destruct (absorb_spec o (set_base b s)) as (Bs & K & D & U & A1 & A2 & W). set (s2 := absorb allowed o (set_base b s)) in *. clearbody s2. cbn [set_base base kept drops attr unwraps] in *. split.
  - intros x Hx. rewrite Bs in Hx. destruct (Nat.lt_ge_cases x (next (base s))) as [Lt|Ge].
    + assert (NN : forall n t, ~ In (New x n t) o) by (intros n t I; apply New2 in I as (_ & I & _); lia).
      destruct (A x Lt) as [(n & Tn & Al & Fo)|[Dr|Un]].
      * left. exists n. rewrite Bs, A1 by exact NN. rewrite T by exact Lt. auto.
      * right. left. now rewrite D.
      * right. right. auto.
    + destruct (New1 x ltac:(lia)) as (n & t & I). destruct (A2 x n t I) as (n' & t' & I' & Ea). destruct (New2 x n' t' I') as ((Q1 & Q2 & Q3) & _ & Tg).
      destruct (allowed n') eqn:Al; [|right; right; now apply (W x n' t')]. left. exists n'. rewrite Bs, Ea. auto.
  - intros e I. rewrite Bs in I. destruct (L e I) as (Q1 & Q2 & Q3). unfold entry_ok. rewrite Bs, K. split; [exact Q1|]. split; [lia|exact Q3].
Qed.
Lemma make_room_good : forall name s s', good s -> make_room allowed name s = Some s' -> good s'.
Proof.
  intros name s s' Gd H. assert (K : forall s1, option_map (fun s => remove_open name (remove_active name s)) (adopt allowed name s) = Some s1 -> good s1).
  { intros s1 E. destruct (adopt allowed name s) as [s2|] eqn:Ea; [|discriminate]. injection E as <-. apply adopt_good in Ea; [|exact Gd].
    assert (G3 : good (remove_active name s2)). { unfold remove_active. destruct (find_name _ _ _); [|exact Ea]. apply good_active; [exact Ea|apply listed_retire, (proj2 Ea)]. }
    unfold remove_open. destruct (open_index _ _ _); [now apply good_stack|exact G3]. }
  unfold make_room in H. destruct (str_eqb name (u "a") && _); [now apply K|]. destruct (str_eqb name (u "nobr") && _); [now apply K|]. injection H as <-. exact Gd.
Qed.
Lemma list_good : forall name s s2, good s -> in_strs name formatting_names = true -> good s2 -> next (base s2) = S (next (base s)) -> active (base s2) = active (base s) -> kept s2 = kept s ->
  (allowed name = true -> Forall (snd_ name) (attr s2 (next (base s)))) -> good (list_entry name s2).
Proof.
  intros name s s2 Gd F G2 N A K H. assert (X : next (base s2) - 1 = next (base s)) by lia. unfold list_entry. rewrite X. split; [exact (proj1 G2)|].
  intros e I. cbn [set_active set_base base active] in I. apply in_app_or in I as [I|[I|[]]].
  - rewrite A in I. destruct (proj2 Gd e I) as (Q1 & Q2 & Q3). split; [exact Q1|]. split; [cbn [set_active set_base base next]; lia|]. cbn [kept]. unfold upd. destruct (Nat.eqb_spec (e_token e) (next (base s))) as [Eq|_]; [lia|]. change (kept (set_active _ s2)) with (kept s2). now rewrite K.
  - injection I as <-. cbn [e_name e_token]. split; [exact F|]. split; [cbn [set_active set_base base next]; lia|]. cbn [kept]. unfold upd. rewrite Nat.eqb_refl. exact H.
Qed.

Lemma merge_sound : forall name new old, Forall (snd_ name) old -> Forall (snd_ name) new -> Forall (snd_ name) (merge old new).
Proof. intros name. induction new as [|[k v] new IH]; intros old Ho Hn; [exact Ho|]. inversion Hn; subst. cbn [merge]. apply IH; [|assumption]. destruct (AttrModel.has_key k old); [exact Ho|]. apply Forall_app. auto. Qed.

Notation gstep := (gstep allowed acts strict strip adjust context).
Lemma step_good : forall ev s s', good s -> tame allowed ev s -> gstep ev s = Some s' -> good s'.
Proof.
  intros ev s s' Gd Tm H. destruct ev as [tpl recon name src parent|name src|tpl recon compiled name src|tpl name|subject|tpl|l| | |x|x src]; cbn [GuardModel.gstep] in H.
  - destruct (read_attrs _ _ _ _ _ _) as [[[a self] []]|]; [|injection H as <-; exact Gd|discriminate].
    destruct recon.
    + destruct (reconstruct tpl s) as [s1|] eqn:Er; [|discriminate]. injection H as <-. apply reconstruct_good in Er as [G1 _]; [|exact Gd]. now apply insert_good.
    + injection H as <-. now apply insert_good.
  - destruct (foreign _); [injection H as <-; exact Gd|]. destruct (AttrModel.parse_attrs_for_action strict strip (acts name) src) as [[[[a self] rest] []]|] eqn:E; [|injection H as <-; exact Gd|discriminate].
    injection H as <-. apply compiled_good; [exact Gd|]. intros A. exact (fused_sound _ _ _ _ _ _ A E).
  - destruct (read_attrs acts strict strip name src s) as [[[a self] []]|] eqn:E; [|injection H as <-; exact Gd|discriminate].
    destruct (in_strs name formatting_names && (html_text name s || breakout name a)) eqn:C; [|injection H as <-; exact Gd]. apply andb_prop in C as [F C].
    unfold formatting_start in H. destruct (make_room allowed name s) as [s1|] eqn:Em; [|discriminate]. assert (G1 := make_room_good _ _ _ Gd Em).
    destruct (if recon then reconstruct tpl s1 else Some s1) as [s2|] eqn:Er; [|discriminate]. injection H as <-.
    assert (G2 : good s2 /\ (html_text name s1 = true -> html_text name s2 = true)).
    { destruct recon; [|injection Er as <-; auto]. apply reconstruct_good in Er as [G2 T2]; [|exact G1]. split; [exact G2|apply T2, F]. }
    destruct G2 as [G2 T2]. destruct (compiled && negb (foreign (tags (base s) (cur s)))) eqn:Cm.
    + apply andb_prop in Cm as [_ Cm]. apply negb_true_iff in Cm.
      assert (Sd : allowed name = true -> Forall (snd_ name) a).
      { intros A. unfold read_attrs in E. rewrite Cm in E. assert (Nm : in_strs name (map u ["math"; "svg"]) = false).
        { destruct (in_strs name (map u ["math"; "svg"])) eqn:Z; [|reflexivity]. exfalso. apply in_strs_In in Z. destruct Z as [<-|[<-|[]]]; vm_compute in F; discriminate. }
        rewrite Nm in E. cbn [orb] in E. destruct (AttrModel.parse_attrs_for_action strict strip (acts name) src) as [[[[a' self'] rest] closed]|] eqn:P; [|discriminate]. cbn [option_map] in E. injection E as -> _ _.
        exact (fused_sound _ _ _ _ _ _ A P). }
      apply (list_good name s2); try assumption; try reflexivity; [now apply compiled_good|]. intros A. cbn [insert_compiled make attr]. unfold upd. rewrite Nat.eqb_refl. auto.
    + destruct (insert_good tpl name a false (cur s2) s2 G2) as (G3 & N3 & A3 & K3).
      assert (Nh : fst (namespace_for name a s2) = Html).
      { apply ns_html; [exact F|]. apply orb_prop in C as [C|C]; [|now right]. destruct (breakout name a) eqn:Bk; [now right|]. left. apply T2.
        destruct (str_eqb name (u "a")) eqn:Ea.
        - apply (Tm (proj1 (str_eqb_eq _ _) Ea)); [|exact Em]. apply andb_false_iff in Cm as [Cm|Cm]; [now left|right]. now apply negb_false_iff in Cm.
        - unfold make_room in Em. rewrite Ea in Em. cbn [andb] in Em. destruct (str_eqb name (u "nobr")) eqn:Eb.
          + apply str_eqb_eq in Eb as ->. vm_compute in Bk. discriminate.
          + cbn [andb] in Em. injection Em as <-. exact C. }
      destruct (insert_html tpl name a false (cur s2) s2 Nh) as [Sd _]. now apply (list_good name s2).
  - injection H as <-. now apply insert_good.
  - now apply adopt_good in H.
  - now apply reconstruct_good in H as [H _].
  - injection H as <-. now apply good_stack.
  - injection H as <-. apply good_active; [exact Gd|]. intros e I. apply in_app_or in I as [I|[I|[]]]; [now apply (proj2 Gd)|discriminate].
  - injection H as <-. apply good_active; [exact Gd|]. intros e I. apply (proj2 Gd). apply in_rev in I. apply in_rev. set (l := rev (active (base s))) in *. clearbody l. clear -I.
    induction l as [|[e0|] l IH]; cbn [clear_back] in I; [destruct I| |]; right; auto.
  - destruct (find_node _ _ _); injection H as <-; [|exact Gd]. apply good_active; [exact Gd|apply listed_retire, (proj2 Gd)].
  - destruct (AttrModel.parse_attrs_for_action strict strip _ src) as [[[[a self] rest] []]|] eqn:E; [|injection H as <-; exact Gd|discriminate]. injection H as <-. split; [|exact (proj2 Gd)].
    intros y Hy. cbn [base] in Hy. destruct (proj1 Gd y Hy) as [(n & Tn & Al & Fo)|Q]; [|right; exact Q]. left. exists n. cbn [base attr]. split; [exact Tn|]. split; [exact Al|]. unfold upd.
    destruct (Nat.eqb_spec y x) as [->|_]; [|exact Fo]. rewrite Tn in E. cbn [fst] in E. apply merge_sound; [exact Fo|exact (fused_sound _ _ _ _ _ _ Al E)].
Qed.
Notation grun := (grun allowed acts strict strip adjust context).
Lemma run_good : forall evs s s', good s -> tame_run allowed acts strict strip adjust context evs s -> grun evs s = Some s' -> good s'.
Proof.
  induction evs as [|ev evs IH]; intros s s' Gd Tm H; [injection H as <-; exact Gd|]. cbn [GuardModel.grun] in H. destruct (gstep ev s) as [s1|] eqn:E; [|discriminate]. destruct Tm as [T1 T2].
  exact (IH s1 s' (step_good _ _ _ Gd T1 E) (T2 s1 E) H).
Qed.
Lemma fresh_good : forall s, fresh allowed acts s -> good s.
Proof. intros s [A B]. split; [exact B|]. rewrite A. intros e []. Qed.
End guard.
