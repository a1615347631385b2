(* refs_ok under line-end normalisation, replacement of U+0000 and cutting *)
From Coq Require Import Lia ZifyBool ZifyN ZifyNat.
From Verif Require Import Str StrFacts HtmlCharRefSpec HtmlTokSpec TokFacts EntitiesModel CharRefFacts EntExact ScanComProofs.
From Verif Require ScanComFinal StrFacts.
Open Scope list_scope. Open Scope N_scope.

Lemma amp_newlines n : forall v p t, (List.length v <= n)%nat -> newlines v = p ++ 38 :: t -> exists p' t', v = p' ++ 38 :: t' /\ t = newlines t'.
Proof.
  induction n as [|n IH]; intros v p t L E; [destruct v; [destruct p; discriminate E|cbn in L; lia]|]. destruct v as [|c v]; [destruct p; discriminate E|]. cbn [List.length] in L.
  destruct (N.eqb_spec c 13) as [->|Nc].
  - destruct (starts [10] v) eqn:S1.
    + apply starts_spec in S1 as [r ->]. cbn [app List.length] in *. rewrite newlines_crlf in E. destruct p as [|x p]; [discriminate E|]. injection E as _ E. destruct (IH r p t ltac:(lia) E) as (p' & t' & -> & ->). exists (13 :: 10 :: p'), t'. split; reflexivity.
    + rewrite newlines_cr in E by exact S1. destruct p as [|x p]; [discriminate E|]. injection E as _ E. destruct (IH v p t ltac:(lia) E) as (p' & t' & -> & ->). exists (13 :: p'), t'. split; reflexivity.
  - rewrite newlines_cons_other in E by exact Nc. destruct p as [|x p].
    + cbn [app] in E. injection E as -> E. exists [], v. split; [reflexivity|congruence].
    + cbn [app] in E. injection E as <- E. destruct (IH v p t ltac:(lia) E) as (p' & t' & -> & ->). exists (c :: p'), t'. split; reflexivity.
Qed.
Lemma drop_newlines (narrow : N -> bool) t : narrow 13 = false -> narrow 10 = false -> drop_while narrow (newlines t) = newlines (drop_while narrow t).
Proof.
  intros H1 H2. induction t as [|c t IH]; [reflexivity|]. destruct (N.eqb_spec c 13) as [->|Nc].
  - cbn [drop_while]. rewrite H1. destruct (ScanComFinal.newlines_head_cr t) as [w Ew]. rewrite Ew. cbn [drop_while]. rewrite H2. reflexivity.
  - rewrite newlines_cons_other by exact Nc. cbn [drop_while]. destruct (narrow c); [exact IH|]. rewrite newlines_cons_other by exact Nc. reflexivity.
Qed.
Lemma next_newlines wide narrow t : narrow 13 = false -> narrow 10 = false -> next_ok wide narrow t = true -> next_ok wide narrow (newlines t) = true.
Proof.
  intros H1 H2 H. unfold next_ok in *. rewrite drop_newlines by assumption. destruct (drop_while narrow t) as [|c r]; [reflexivity|]. destruct (N.eqb_spec c 13) as [->|Nc]; [destruct (ScanComFinal.newlines_head_cr r) as [w Ew]; rewrite Ew; reflexivity|]. rewrite newlines_cons_other by exact Nc. exact H.
Qed.
Lemma ref_newlines a t : ref_ok a t = true -> ref_ok a (newlines t) = true.
Proof.
  destruct t as [|c t]; [reflexivity|]. intros H. destruct (N.eqb_spec c 13) as [->|Nc].
  - pose proof (next_newlines is_alnum is_alnum_ascii (13 :: t) eq_refl eq_refl) as K. destruct (ScanComFinal.newlines_head_cr t) as [w Ew]. rewrite Ew in *. cbn [ref_ok] in *. change (13 =? 35) with false in H. change (10 =? 35) with false. cbv iota in *. destruct a; [apply K; exact H|reflexivity].
  - rewrite newlines_cons_other by exact Nc. cbn [ref_ok] in *. destruct (c =? 35); [apply next_newlines; [reflexivity|reflexivity|exact H]|]. destruct a; [|reflexivity]. cbn [negb orb] in *. rewrite <- newlines_cons_other by exact Nc. apply next_newlines; [reflexivity|reflexivity|exact H].
Qed.
Lemma refs_newlines a v : refs_ok a v -> refs_ok a (newlines v).
Proof. intros H p t E. destruct (amp_newlines (List.length v) v p t (le_n _) E) as (p' & t' & -> & ->). apply ref_newlines. apply (H p'). reflexivity. Qed.

Lemma next_cut wide narrow t r : next_ok wide narrow (t ++ r) = true -> next_ok wide narrow t = true.
Proof. unfold next_ok. induction t as [|c t IH]; [reflexivity|]. cbn [app drop_while]. destruct (narrow c); [exact IH|]. intros H. exact H. Qed.
Lemma ref_cut a t r : ref_ok a (t ++ r) = true -> ref_ok a t = true.
Proof.
  destruct t as [|c t]; [reflexivity|]. cbn [app ref_ok]. destruct (c =? 35); [apply next_cut|]. destruct a; [|reflexivity]. cbn [negb orb]. intros H. apply (next_cut _ _ (c :: t) r). exact H.
Qed.
Lemma refs_cut a t r : refs_ok a (t ++ r) -> refs_ok a t.
Proof. intros H p q ->. apply (ref_cut a q r). apply (H p). rewrite <- app_assoc. reflexivity. Qed.

Lemma nul_class (P : N -> bool) c : P 0 = false -> P 65533 = false -> P (nul c) = P c.
Proof. intros A B. unfold nul. destruct (N.eqb_spec c 0) as [->|]; congruence. Qed.
Lemma next_nul wide narrow t : narrow 0 = false -> narrow 65533 = false -> wide 65533 = false -> next_ok wide narrow t = true -> next_ok wide narrow (map nul t) = true.
Proof.
  intros A B C. unfold next_ok. induction t as [|c t IH]; [reflexivity|]. cbn [map drop_while]. rewrite (nul_class narrow c A B). destruct (narrow c); [exact IH|]. intros H. unfold nul. destruct (c =? 0); [rewrite C; apply orb_true_r|exact H].
Qed.
Lemma ref_nul a t : ref_ok a t = true -> ref_ok a (map nul t) = true.
Proof.
  destruct t as [|c t]; [reflexivity|]. intros H. cbn [map ref_ok] in *. assert (E : (nul c =? 35) = (c =? 35)) by (apply (nul_class (fun c => c =? 35)); reflexivity). rewrite E. destruct (c =? 35); [apply next_nul; [reflexivity|reflexivity|vm_compute; reflexivity|exact H]|]. destruct a; [|reflexivity]. cbn [negb orb] in *. change (nul c :: map nul t) with (map nul (c :: t)). apply next_nul; [reflexivity|reflexivity|vm_compute; reflexivity|exact H].
Qed.
Lemma refs_nul a v : refs_ok a v -> refs_ok a (map nul v).
Proof.
  intros H p t E. assert (K : exists p' t', v = p' ++ 38 :: t' /\ t = map nul t').
  { clear H. revert p E. induction v as [|c v IH]; intros p E; [destruct p; discriminate E|]. destruct p as [|x p]; cbn [map app] in E.
    - injection E as E1 E2. exists [], v. split; [|congruence]. unfold nul in E1. destruct (N.eqb_spec c 0); [discriminate E1|rewrite E1; reflexivity].
    - injection E as _ E. destruct (IH p E) as (p' & t' & -> & ->). exists (c :: p'), t'. split; reflexivity. }
  destruct K as (p' & t' & -> & ->). apply ref_nul. apply (H p'). reflexivity.
Qed.
(* text without such characters *)
Lemma refs_chars a s : (forall c, In c s -> c < 128 \/ (if a : bool then is_alnum c else is_digit c) = false) -> refs_ok a s.
Proof.
  intros H p t ->. assert (Ht : forall c, In c t -> c < 128 \/ (if a : bool then is_alnum c else is_digit c) = false) by (intros c I; apply H; apply in_or_app; right; right; exact I).
  assert (D : forall wide narrow r, (forall c, In c r -> c < 128 \/ wide c = false) -> next_ok wide narrow r = true).
  { intros wide narrow r Hr. unfold next_ok. destruct (drop_while narrow r) as [|c q] eqn:E; [reflexivity|]. assert (I : In c r) by (apply (StrFacts.drop_while_incl narrow); rewrite E; left; reflexivity). destruct (Hr c I) as [K|K]; [apply N.ltb_lt in K; rewrite K; reflexivity|rewrite K; apply orb_true_r]. }
  destruct t as [|c t]; [reflexivity|]. cbn [ref_ok]. destruct (c =? 35).
  - apply D. intros x I. destruct (Ht x (or_intror I)) as [K|K]; [left; exact K|right]. destruct a; [|exact K]. unfold is_alnum in K. destruct (is_digit x); [rewrite orb_true_r in K; discriminate K|reflexivity].
  - destruct a; [|reflexivity]. cbn [negb orb]. apply D. exact Ht.
Qed.
(* a reference never yields U+0000 *)
Lemma numeric_pos x : numeric_char x <> 0.
Proof.
  unfold numeric_char. destruct (N.eqb_spec x 0) as [->|Nx]; [discriminate|]. destruct (1114111 <? x); [discriminate|]. destruct ((55296 <=? x) && (x <=? 57343)); [discriminate|]. destruct (List.find (fun p : N * N => fst p =? x) c1_table) as [p|] eqn:E; [|exact Nx]. apply find_some in E as [I _].
  assert (K : forallb (fun p : N * N => negb (snd p =? 0)) c1_table = true) by reflexivity. rewrite forallb_forall in K. specialize (K p I). lia.
Qed.
Lemma table_pos : forallb (fun e : str * str => forallb (fun c => negb (c =? 0)) (snd e)) EntityTable.html5_table = true.
Proof. vm_compute. reflexivity. Qed.
Lemma charref_pos a r v n : charref a r = Some (v, n) -> map nul v = v.
Proof.
  assert (One : forall x, map nul [numeric_char x] = [numeric_char x]) by (intros x; cbn [map]; unfold nul; destruct (N.eqb_spec (numeric_char x) 0) as [E|]; [destruct (numeric_pos x E)|reflexivity]).
  destruct r as [|c r]; [discriminate|]. unfold charref. destruct (c =? 35).
  - unfold charref_numeric. destruct (match r with x :: _ => (x =? 120) || (x =? 88) | [] => false end); destruct (take_while _ _); try discriminate; intros H; assert (exists x, v = [numeric_char x]) as [x ->] by (injection H as H _; eexists; symmetry; exact H); apply One.
  - unfold charref_named. destruct (longest_named (c :: r)) as [[k w]|] eqn:E; [|discriminate]. destruct (_ && _); [discriminate|]. intros H. assert (w = v) as <- by congruence. destruct (longest_in _ _ E) as [I _]. pose proof table_pos as K. rewrite forallb_forall in K. specialize (K _ I). cbn [snd] in K. clear -K. induction w as [|c w IH]; [reflexivity|]. cbn [forallb map] in *. apply andb_true_iff in K as [K1 K2]. rewrite IH by exact K2. unfold nul. destruct (c =? 0); [discriminate K1|reflexivity].
Qed.
