(* PROOFS for C66, part 2: what the two sides say of one element; foreign elements on top *)
From Coq Require Import List Arith Bool String Lia.
From Verif Require Import Str StrFacts SerTreeProofs.
From Verif Require Import AaaModel GuardModel CloseModel CloseSpec CloseProofs1.
Import ListNotations.
Open Scope string_scope. Open Scope list_scope. Open Scope nat_scope.

Definition apart (l m : list str) : bool := forallb (fun x => negb (in_strs x m)) l.
Lemma apart_in : forall l m n, apart l m = true -> in_strs n l = true -> in_strs n m = false.
Proof. intros l m n H Hn. apply in_strs_In in Hn. unfold apart in H. rewrite forallb_forall in H. apply H in Hn. apply negb_true_iff in Hn. exact Hn. Qed.
Lemma not_in_sub : forall l m n, sub m l = true -> in_strs n l = false -> in_strs n m = false.
Proof. intros l m n H Hn. destruct (in_strs n m) eqn:E; [|reflexivity]. rewrite (sub_in _ _ _ H E) in Hn. discriminate. Qed.

Lemma boundary_point : forall e, foreign_boundary e = point e.
Proof.
  intros [n s c]. unfold foreign_boundary, point, html, html_point, text_point, html_integration_point, mathml_text_point, named, name_in, one_of. cbn [en es enc].
  destruct s; cbn [negb andb orb]; [reflexivity| |].
  - rewrite orb_false_r. reflexivity.
  - change (map u ["annotation-xml"]) with [u "annotation-xml"]. rewrite in_one. apply orb_comm.
Qed.
Lemma point_foreign : forall e, point e = true -> html e = false.
Proof. intros [n s c]. destruct s; [discriminate|reflexivity|reflexivity]. Qed.
Lemma ends_foreign : forall more e, html e = false -> ends_scope more e = point e || unencoded e.
Proof.
  intros more [n s c] H. destruct s; [discriminate| |]; unfold ends_scope, point, unencoded, html_integration_point, mathml_text_point, one_of; cbn [en es enc].
  - rewrite orb_false_l, orb_false_r. reflexivity.
  - change (map u mathml_points) with (map u ["mi"; "mo"; "mn"; "ms"; "mtext"] ++ map u ["annotation-xml"]). rewrite in_strs_app.
    destruct (in_strs n (map u ["mi"; "mo"; "mn"; "ms"; "mtext"])), (in_strs n (map u ["annotation-xml"])), c; reflexivity.
Qed.
Lemma special_foreign : forall e, html e = false -> special_element e = point e || unencoded e.
Proof. intros e H. rewrite <- (ends_foreign [] e H). destruct e as [n s c]. destruct s; [discriminate|reflexivity|reflexivity]. Qed.

Lemma lower_svg_names : forallb (fun m => str_eqb (lower m) (alow m)) svg_names = true.
Proof. vm_compute. reflexivity. Qed.
Lemma svg_name_cases : forall n, svg_name n = n \/ (In (svg_name n) svg_names /\ alow (svg_name n) = n).
Proof.
  intros n. unfold svg_name. destruct (List.find _ svg_names) as [m|] eqn:E; [|left; reflexivity]. right.
  apply find_some in E. destruct E as [I E]. apply str_eqb_eq in E. split; assumption.
Qed.
Lemma lower_svg : forall n, lower n = n -> lower (svg_name n) = n.
Proof.
  intros n H. destruct (svg_name_cases n) as [E|[I E]]; [rewrite E; exact H|]. pose proof lower_svg_names as L. rewrite forallb_forall in L. apply L in I. apply str_eqb_eq in I. congruence.
Qed.
Lemma foreign_lower : forall e, okel e -> html e = false -> exists n, lower n = n /\ in_strs n breakout_names = false /\ lower (en e) = n /\ (en e = n \/ (en e = svg_name n /\ es e = Svg)).
Proof.
  intros e H F. unfold okel in H. rewrite F in H. destruct H as [n [L [B E]]]. exists n. split; [exact L|]. split; [exact B|].
  destruct (es e) eqn:S; rewrite E; auto using lower_svg.
Qed.
Lemma foreign_not : forall e, okel e -> html e = false -> in_strs (en e) breakout_names = false.
Proof.
  intros e H F. destruct (foreign_lower e H F) as [n [L [B [_ [E|[E _]]]]]]; rewrite E; [exact B|].
  destruct (svg_name_cases n) as [C|[C _]]; [rewrite C; exact B|]. apply in_strs_In in C. refine (apart_in _ _ _ _ C). vm_compute. reflexivity.
Qed.
(* a name of the code's lists for something the standard asks of an HTML element *)
Lemma named_is : forall n e, okel e -> in_strs (u n) breakout_names = true -> named (u n) e = is n e.
Proof.
  intros n e H B. unfold named, is. destruct (html e) eqn:F; [reflexivity|]. cbn [andb]. destruct (str_eqb (en e) (u n)) eqn:E; [|reflexivity].
  apply str_eqb_eq in E. pose proof (foreign_not e H F) as C. rewrite E in C. congruence.
Qed.
Lemma headings_is : forall e, okel e -> name_in headings e = heading e.
Proof.
  intros e H. unfold name_in, heading. destruct (html e) eqn:F; [reflexivity|]. cbn [andb]. destruct (in_strs (en e) headings) eqn:E; [|reflexivity].
  pose proof (foreign_not e H F) as C. rewrite (sub_in headings breakout_names) in C; [discriminate|vm_compute; reflexivity|exact E].
Qed.
Lemma element_named : forall n e, html e = true -> element n e = named n e.
Proof. intros n e H. unfold element, named. rewrite H. reflexivity. Qed.
Lemma is_element : forall n e, is n e = element (u n) e.
Proof. reflexivity. Qed.
Lemma scope_html : forall more bounds e, html e = true -> sub bounds (map u (more ++ ["applet"; "caption"; "html"; "table"; "td"; "th"; "marquee"; "object"; "template"])) && sub (map u (more ++ ["applet"; "caption"; "html"; "table"; "td"; "th"; "marquee"; "object"; "template"])) bounds = true ->
  name_in bounds e = ends_scope more e.
Proof. intros more bounds [n s c] H S. destruct s; [|discriminate|discriminate]. unfold name_in, ends_scope, one_of. cbn [en es]. apply same_in. exact S. Qed.

(* ---- what is near the top ---- *)
Lemma upper_sub : forall (P : el -> Prop) l, Forall P l -> Forall P (upper l).
Proof. intros P l H. induction H as [|e t H F IH]; cbn [upper]; [constructor|]. destruct (point e); constructor; auto. Qed.
Lemma upper_near : forall q l, chained l -> reaches q (fun e => html e || point e) l = false ->
  Forall (fun e => html e = false -> point e = false -> q e = false) (upper l).
Proof.
  intros q. assert (forall l, chained l -> (l = [] \/ sound_top l = true) -> Forall (fun e => html e = false -> point e = false -> q e = false) (upper l)) as S.
  { induction l as [|e t IH]; intros C T; cbn [upper]; [constructor|]. destruct T as [T|T]; [discriminate|]. cbn [sound_top] in T.
    destruct (point e) eqn:P; [constructor; [congruence|constructor]|]. rewrite orb_false_r in T. destruct C as [C C']. constructor; [congruence|]. apply IH; [exact C'|].
    destruct t as [|f t]; [left; reflexivity|right]. apply C; [exact T|discriminate]. }
  induction l as [|e t IH]; intros C R; cbn [upper]; [constructor|]. cbn [reaches] in R. apply orb_false_iff in R. destruct R as [Q R].
  destruct C as [C C']. destruct (point e) eqn:P; [constructor; [congruence|constructor]|]. constructor; [intros; exact Q|].
  destruct (html e) eqn:F.
  - apply S; [exact C'|]. destruct t as [|f t]; [left; reflexivity|right]. apply C; [reflexivity|discriminate].
  - apply IH; [exact C'|exact R].
Qed.
Lemma upper_sound : forall l, chained l -> (l = [] \/ sound_top l = true) -> Forall (fun e => html e = true \/ point e = true) (upper l).
Proof.
  induction l as [|e t IH]; intros C T; cbn [upper]; [constructor|]. destruct T as [T|T]; [discriminate|]. cbn [sound_top] in T. apply orb_true_iff in T.
  destruct (point e) eqn:P; [constructor; [right; exact P|constructor]|]. destruct T as [T|T]; [|discriminate]. destruct C as [C C']. constructor; [left; exact T|]. apply IH; [exact C'|].
  destruct t as [|f t]; [left; reflexivity|right]. apply C; [exact T|discriminate].
Qed.

(* ---- suffixes ---- *)
Definition suffix (r l : stack) : Prop := exists a, l = a ++ r.
Lemma suffix_refl : forall l, suffix l l. Proof. intros l. exists []. reflexivity. Qed.
Lemma suffix_trans : forall a b c, suffix a b -> suffix b c -> suffix a c.
Proof. intros a b c [x H] [y K]. exists (y ++ x). rewrite K, H. apply app_assoc. Qed.
Lemma suffix_cons : forall e l, suffix l (e :: l). Proof. intros e l. exists [e]. reflexivity. Qed.
Lemma pop_until_suffix : forall p l, suffix (pop_until p l) l.
Proof. intros p. induction l as [|e t IH]; cbn [pop_until]; [apply suffix_refl|]. destruct (p e); [apply suffix_cons|]. eapply suffix_trans; [exact IH|apply suffix_cons]. Qed.
Lemma generate_suffix : forall x l, suffix (generate x l) l.
Proof. intros x. induction l as [|e t IH]; cbn [generate]; [apply suffix_refl|]. destruct (_ && _); [|apply suffix_refl]. eapply suffix_trans; [exact IH|apply suffix_cons]. Qed.
Lemma leave_suffix : forall l, suffix (leave_foreign l) l.
Proof. induction l as [|e t IH]; cbn [leave_foreign]; [apply suffix_refl|]. destruct (html e || point e); [apply suffix_refl|]. eapply suffix_trans; [exact IH|apply suffix_cons]. Qed.
Lemma find_suffix : forall p b l t, find_p p b l = Some t -> suffix t l.
Proof.
  intros p b. induction l as [|e r IH]; intros t H; [discriminate|]. cbn [find_p] in H. destruct (p e); [injection H as <-; apply suffix_cons|].
  destruct (b e); [discriminate|]. eapply suffix_trans; [exact (IH t H)|apply suffix_cons].
Qed.
Lemma chained_suffix : forall r l, suffix r l -> chained l -> chained r.
Proof. intros r l [a ->]. induction a as [|e a IH]; intros H; [exact H|]. destruct H as [_ H]. exact (IH H). Qed.
Lemma nopara_suffix : forall r l, suffix r l -> nopara l -> nopara r.
Proof. intros r l [a ->]. induction a as [|e a IH]; intros H; [exact H|]. destruct H as [_ H]. exact (IH H). Qed.
Lemma noitem_suffix : forall r l, suffix r l -> noitem l -> noitem r.
Proof. intros r l [a ->]. induction a as [|e a IH]; intros H; [exact H|]. destruct H as [_ H]. exact (IH H). Qed.
Lemma okel_suffix : forall r l, suffix r l -> Forall okel l -> Forall okel r.
Proof. intros r l [a ->] H. apply Forall_app in H. exact (proj2 H). Qed.
Lemma inv_suffix : forall r l, suffix r l -> inv l -> bottom r -> inv r.
Proof. intros r l S [A B C D _] E. constructor; eauto using chained_suffix, nopara_suffix, noitem_suffix, okel_suffix. Qed.

(* the bottom of the stack is kept *)
Lemma bottom_tail : forall e t, bottom (e :: t) -> e <> the_body -> bottom t.
Proof. intros e t [a H] N. destruct a as [|x a]; cbn [app] in H; injection H as -> H; [congruence|]. exists a. exact H. Qed.
Lemma bottom_find : forall p b l t, bottom l -> p the_body = false -> p the_html = false -> find_p p b l = Some t -> bottom t.
Proof.
  intros p b l t [a ->] B H. induction a as [|e a IH]; cbn [app find_p].
  - rewrite B, H. destruct (b the_body), (b the_html); discriminate.
  - destruct (p e); [intros E; injection E as <-; exists a; reflexivity|]. destruct (b e); [discriminate|]. exact IH.
Qed.
Lemma bottom_cut : forall p b l, bottom l -> p the_body = false -> p the_html = false -> bottom (cut p b l).
Proof. intros p b l B H K. unfold cut. destruct (find_p p b l) as [t|] eqn:E; [exact (bottom_find _ _ _ _ B H K E)|exact B]. Qed.
Lemma bottom_leave : forall l, bottom l -> bottom (leave_foreign l).
Proof. intros l [a ->]. induction a as [|e a IH]; cbn [app leave_foreign]; [exists []; reflexivity|]. destruct (html e || point e); [exists (e :: a); reflexivity|exact IH]. Qed.
Lemma bottom_generate : forall x l, bottom l -> bottom (generate x l).
Proof. intros x l [a ->]. induction a as [|e a IH]; cbn [app generate]; [exists []; reflexivity|]. destruct (_ && _); [exact IH|exists (e :: a); reflexivity]. Qed.
Lemma bottom_ne : forall l, bottom l -> l <> [].
Proof. intros l [a ->] H. destruct a; discriminate. Qed.
Lemma cut_suffix : forall p b l, suffix (cut p b l) l.
Proof. intros p b l. unfold cut. destruct (find_p p b l) as [t|] eqn:E; [exact (find_suffix _ _ _ _ E)|apply suffix_refl]. Qed.
Lemma sound_leave : forall l, bottom l -> sound_top (leave_foreign l) = true.
Proof. intros l [a ->]. induction a as [|e a IH]; cbn [app leave_foreign]; [reflexivity|]. destruct (html e || point e) eqn:E; [cbn [sound_top]; exact E|exact IH]. Qed.
Lemma leave_sound : forall l, sound_top l = true -> leave_foreign l = l.
Proof. intros [|e t] H; [reflexivity|]. cbn [leave_foreign sound_top] in *. rewrite H. reflexivity. Qed.
(* an HTML element found and closed: what is left has a sound top *)
Lemma find_sound : forall p b l t, chained l -> bottom l -> (forall e, In e l -> p e = true -> html e = true) -> p the_body = false -> p the_html = false -> find_p p b l = Some t -> sound_top t = true.
Proof.
  intros p b l t C Bt H PB PH E. pose proof (bottom_find _ _ _ _ Bt PB PH E) as Bt'. apply bottom_ne in Bt'. clear Bt PB PH.
  revert C H E. induction l as [|e r IH]; intros C H E; [discriminate|]. cbn [find_p] in E. destruct C as [C C'].
  destruct (p e) eqn:P; [injection E as <-; apply C; [apply H; [left; reflexivity|exact P]|exact Bt']|]. destruct (b e); [discriminate|]. apply IH; [exact C'| |exact E]. intros x I. apply H. right. exact I.
Qed.
(* foreign elements on top do not change what is found *)
Lemma find_leave : forall p b l, (forall e, In e l -> html e = false -> p e = false) -> (forall e, html e = false -> point e = false -> b e = false) -> find_p p b l = find_p p b (leave_foreign l).
Proof.
  intros p b l H K. induction l as [|e t IH]; [reflexivity|]. cbn [leave_foreign]. destruct (html e || point e) eqn:E; [reflexivity|]. apply orb_false_iff in E. destruct E as [E F].
  cbn [find_p]. rewrite (H e) by (try (left; reflexivity); exact E). rewrite (K e E F). apply IH. intros x I. apply H. right. exact I.
Qed.
Lemma cut_leave : forall p b l, chained l -> bottom l -> (forall e, In e l -> html e = false -> p e = false) -> (forall e, html e = false -> point e = false -> b e = false) -> p the_body = false -> p the_html = false ->
  leave_foreign (cut p b l) = cut p b (leave_foreign l).
Proof.
  intros p b l C Bt H K PB PH. unfold cut. rewrite <- (find_leave p b l H K). destruct (find_p p b l) as [t|] eqn:E; [|reflexivity]. cbn [or_same]. apply leave_sound.
  refine (find_sound p b l t C Bt _ PB PH E). intros e I P. destruct (html e) eqn:F; [reflexivity|]. rewrite (H e I F) in P. discriminate.
Qed.
Lemma pop_leave : forall l, bottom l -> pop_foreign l = leave_foreign l.
Proof.
  intros l [a ->]. induction a as [|e a IH]; [reflexivity|]. cbn [app leave_foreign].
  assert (exists x y, a ++ [the_body; the_html] = x :: y) as [x [y E]] by (destruct a; cbn [app]; eauto).
  rewrite E in IH |- *. cbn [pop_foreign].
  replace (negb (html e) && negb (html_point e) && negb (text_point e)) with (negb (html e || point e)); [destruct (html e || point e); [reflexivity|exact IH]|].
  rewrite <- boundary_point. unfold foreign_boundary. destruct (html e), (html_point e), (text_point e); reflexivity.
Qed.
