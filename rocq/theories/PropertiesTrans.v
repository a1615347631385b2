(* PROPERTY C57: the structural transforms (SetAttrs, Drop, Unwrap, Empty, Decide, EditAttrs, DropComments, DropDoctype) *)
From Coq Require Import Lia.
From Verif Require Import ListFacts Str StrFacts SerializerModel SerTreeProofs MiscModel TextSpec TextProofs PrettySpec TransModel TransSpec TransProofs.
Open Scope list_scope. Open Scope N_scope.

(* Every pipeline terminates on every tree (no walk runs forever on nodes it keeps putting back). *)
Theorem C57_total ts n : exists n', apply_walk ts n = Some n'.
Proof. apply apply_walk_total. Qed.
Print Assumptions C57_total.

(* "Transforms run left-to-right, but JustHTML may batch compatible transforms into a single tree walk.  Batching preserves
   left-to-right ordering": one walk with all transforms gives the same tree as one walk for each - as long as they look at
   one node at a time (its name and attributes), and only the first of the batch replaces nodes by their children. *)
Theorem C57_batch_partial ts n : Forall local_t ts -> (match ts with [] => True | _ :: rest => Forall (fun t => ~ hoists t) rest end) ->
  apply_walk ts n = one_by_one ts n.
Proof. apply batch_one. Qed.
Print Assumptions C57_batch_partial.

Definition el (name : string) (cs : list node) : node := NElem (u name) (Some (u "html")) [] cs None.
Definition tag (name : string) (n : node) : bool := match n with NElem nm _ _ _ _ => str_eqb nm (u name) | _ => false end.
Lemma tag_local name : local (tag name). Proof. intros n m H. destruct H; reflexivity. Qed.

(* Without that restriction it is false: transforms=[SetAttrs("a", rel="nofollow"), Unwrap("span")] does not set rel on an <a> directly
   inside a <span>, and [Drop("b"), Unwrap("span")] keeps a <b> there: children hoisted by the second transform never see the first. *)
Theorem C57_hoist_refuted : exists ts n, Forall local_t ts /\ apply_walk ts n <> one_by_one ts n /\
  ts = [TDrop (tag "b"); TUnwrap (tag "span")] /\ n = NDocument [el "span" [el "b" [NText (u "x")]]] /\
  apply_walk ts n = Some (NDocument [el "b" [NText (u "x")]]) /\ one_by_one ts n = Some (NDocument []).
Proof.
  eexists. eexists. split; [|split; [|split; [reflexivity|split; [reflexivity|split; reflexivity]]]].
  - repeat constructor; apply tag_local.
  - discriminate.
Qed.
Print Assumptions C57_hoist_refuted.
Theorem C57_hoist_attrs_refuted : exists ts n, ts = [TSetAttrs (tag "a") [(u "rel", Some (u "nofollow"))]; TUnwrap (tag "span")] /\
  n = NDocument [el "span" [el "a" [NText (u "x")]]] /\
  apply_walk ts n = Some (NDocument [el "a" [NText (u "x")]]) /\
  one_by_one ts n = Some (NDocument [NElem (u "a") (Some (u "html")) [(u "rel", Some (u "nofollow"))] [NText (u "x")] None]).
Proof. eexists. eexists. split; [reflexivity|split; [reflexivity|split; reflexivity]]. Qed.
Print Assumptions C57_hoist_attrs_refuted.
(* ... nor does it hold for CollapseWhitespace after Drop: the text before a dropped element keeps its trailing space *)
Theorem C57_collapse_refuted : exists ts n, ts = [TDrop (tag "span"); TCollapse [] true [u "p"]] /\ n = NDocument [el "p" [NText (u "x "); el "span" [NText (u "y")]]] /\
  apply_walk ts n = Some (NDocument [el "p" [NText (u "x ")]]) /\ one_by_one ts n = Some (NDocument [el "p" [NText (u "x")]]).
Proof. eexists. eexists. split; [reflexivity|split; [reflexivity|split; vm_compute; reflexivity]]. Qed.
Print Assumptions C57_collapse_refuted.
(* ... nor for two adjacent Decide transforms with the same selector, which are compiled into one: after EMPTY the second is not asked *)
Theorem C57_decide_chain_refuted : exists f g n, apply_walk [TDecide (Some (tag "p")) [f; g]] n = Some (NDocument [el "p" []]) /\
  one_by_one [TDecide (Some (tag "p")) [f]; TDecide (Some (tag "p")) [g]] n = Some (NDocument []) /\
  (forall x, f x = AEmpty) /\ (forall x, g x = ADrop) /\ n = NDocument [el "p" [NText (u "x")]].
Proof. exists (fun _ => AEmpty), (fun _ => ADrop), (NDocument [el "p" [NText (u "x")]]). repeat split; reflexivity. Qed.
Print Assumptions C57_decide_chain_refuted.
(* a fused chain of callbacks that only keep or drop is the sequence of them *)
Lemma chain_hrun f g i n : (forall x, f x = AKeep \/ f x = ADrop) -> (forall x, g x = AKeep \/ g x = ADrop) ->
  forall sel, hrun i [TDecide sel [f; g]] n false = hrun i [TDecide sel [f]; TDecide sel [g]] n false.
Proof.
  intros F G sel. cbn [hrun first_action]. destruct (match sel with None => true | Some s => is_element n && s n end) eqn:E; [|reflexivity].
  destruct (F n) as [->| ->]; [|reflexivity]. destruct (G n) as [->| ->]; reflexivity.
Qed.

(* Drop(selector): the matching elements go, with their content; everything else stays as it was, in order. *)
Definition elements_that (sel : node -> bool) (n : node) : bool := match n with NElem _ _ _ _ _ => sel n | _ => false end.
Lemma elem_and_that sel n : elem_and sel n = elements_that sel n. Proof. destruct n; reflexivity. Qed.
Lemma without_ext p q n : (forall x, p x = q x) -> without p n = without q n.
Proof.
  intros E. induction n as [d|d|d|d|cs IH|name ns attrs cs tc IH IHt] using node_ind'; cbn [without]; rewrite E; try reflexivity; rewrite (flat_ext_F _ _ _ IH); [reflexivity|].
  destruct tc as [l|]; [rewrite (flat_ext_F _ _ _ (IHt l eq_refl))|]; reflexivity.
Qed.
Theorem C57_drop sel n : local sel -> apply_walk [TDrop sel] n = Some (inside (without (elements_that sel)) n).
Proof.
  intros L. rewrite apply_walk_local; [|discriminate|constructor; [exact L|constructor]]. f_equal. apply inside_ext. intros x. rewrite drop_spec. apply without_ext. apply elem_and_that.
Qed.
Print Assumptions C57_drop.
Theorem C57_drop_comments n : apply_walk [TDropComments] n = Some (inside (without (fun n => match n with NComment _ | NPI _ => true | _ => false end)) n).
Proof. rewrite apply_walk_local; [|discriminate|repeat constructor]. f_equal. apply inside_ext, drop_comments_spec. Qed.
Print Assumptions C57_drop_comments.
Theorem C57_drop_doctype n : apply_walk [TDropDoctype] n = Some (inside (without (fun n => match n with NDoctype _ => true | _ => false end)) n).
Proof. rewrite apply_walk_local; [|discriminate|repeat constructor]. f_equal. apply inside_ext, drop_doctype_spec. Qed.
Print Assumptions C57_drop_doctype.
(* no removed kind of node is left anywhere below the root *)
Definition clean (p : node -> bool) (m : node) : Prop := forall x, within x m -> p x = false.
Lemma clean_leaf (p : node -> bool) m : p m = false -> (forall x, within x m -> x = m) -> clean p m.
Proof. intros E H x W. rewrite (H x W). exact E. Qed.
Lemma clean_list p l : Forall (fun n => forall m, In m (without p n) -> clean p m) l -> forall c x, In c (flat_map (without p) l) -> within x c -> p x = false.
Proof. intros F c x I W. apply in_flat_map in I as (c0 & I0 & I1). rewrite Forall_forall in F. exact (F c0 I0 c I1 x W). Qed.
Lemma without_clean p n : local p -> forall m, In m (without p n) -> clean p m.
Proof.
  intros L. induction n as [d|d|d|d|cs IH|name ns attrs cs tc IH IHt] using node_ind'; intros m I; cbn [without] in I.
  - destruct (p (NText d)) eqn:E; [destruct I|]. destruct I as [<-|[]]. apply clean_leaf; [exact E|]. intros x W. inversion W. reflexivity.
  - destruct (p (NComment d)) eqn:E; [destruct I|]. destruct I as [<-|[]]. apply clean_leaf; [exact E|]. intros x W. inversion W. reflexivity.
  - destruct (p (NPI d)) eqn:E; [destruct I|]. destruct I as [<-|[]]. apply clean_leaf; [exact E|]. intros x W. inversion W. reflexivity.
  - destruct (p (NDoctype d)) eqn:E; [destruct I|]. destruct I as [<-|[]]. apply clean_leaf; [exact E|]. intros x W. inversion W. reflexivity.
  - destruct (p (NDocument cs)) eqn:E; [destruct I|]. destruct I as [<-|[]]. intros x W. inversion W as [|c cs0 I W2| |]; subst; [rewrite <- E; apply L; constructor|exact (clean_list p cs IH c x I W2)].
  - destruct (p (NElem name ns attrs cs tc)) eqn:E; [destruct I|]. destruct I as [<-|[]]. intros x W. inversion W as [| |c nm ns0 at0 cs0 tc0 I W2|c nm ns0 at0 cs0 l0 I W2]; subst.
    + rewrite <- E. apply L. constructor.
    + exact (clean_list p cs IH c x I W2).
    + destruct tc as [l|]; [|discriminate]. assert (l0 = flat_map (without p) l) as -> by congruence. exact (clean_list p l (IHt l eq_refl) c x I W2).
Qed.
Theorem C57_drop_complete sel cs n' : local sel -> apply_walk [TDrop sel] (NDocument cs) = Some n' -> forall x, within x n' -> elements_that sel x = false.
Proof.
  intros L H x W. rewrite (C57_drop sel _ L) in H. injection H as <-. inversion W as [|c cs0 I W2| |]; subst; [reflexivity|].
  apply in_flat_map in I as (c0 & I0 & I1). refine (without_clean _ c0 _ c I1 x W2). intros a b H. destruct H; try reflexivity. apply (L _ _ (h_element _ _ _ _ _ _ _)).
Qed.
Print Assumptions C57_drop_complete.
(* Drop("tag1, tag2, ...") alone takes another path through the code; it does the same. *)
Theorem C57_bulk_drop tags n : (match n with NElem _ _ _ _ (Some _) => False | _ => True end) ->
  apply_walk [TDecide None [drop_if_tag tags]] n = Some (bulk_drop tags n) /\
  Some (bulk_drop tags n) = Some (inside (without (elements_that (fun n => match n with NElem name _ _ _ _ => in_strs (lower name) tags | _ => false end))) n).
Proof.
  intros Hr. assert (L : local_t (TDecide None [drop_if_tag tags])).
  { split; [exact Logic.I|]. intros f [<-|[]]. intros a b H. destruct H; reflexivity. }
  set (p := fun n => match drop_if_tag tags n with ADrop => true | _ => false end).
  assert (E : Some (bulk_drop tags n) = Some (inside (without p) n)).
  { f_equal. destruct n as [d|d|d|d|cs|name ns attrs cs tc]; try reflexivity; cbn [bulk_drop inside].
    - rewrite <- bulk_lists; [reflexivity|]. apply Forall_forall. intros c _. apply bulk_spec.
    - destruct tc; [destruct Hr|]. rewrite <- bulk_lists; [reflexivity|]. apply Forall_forall. intros c _. apply bulk_spec. }
  split.
  - rewrite E, apply_walk_local; [|discriminate|constructor; [exact L|constructor]]. f_equal. apply inside_ext. intros x. rewrite <- decide_drop_spec. apply decide_ext.
    intros y. unfold p. destruct y; try reflexivity. cbn [drop_if_tag]. destruct (in_strs (lower name) tags); reflexivity.
  - rewrite E. f_equal. apply inside_ext. intros x. apply without_ext. intros y. unfold p. destruct y; try reflexivity. cbn [drop_if_tag elements_that]. destruct (in_strs (lower name) tags); reflexivity.
Qed.
Print Assumptions C57_bulk_drop.

(* Empty(selector) *)
Lemma emptied_ext p q n : (forall x, p x = q x) -> emptied p n = emptied q n.
Proof.
  intros E. induction n as [d|d|d|d|cs IH|name ns attrs cs tc IH IHt] using node_ind'; try reflexivity; cbn [emptied]; rewrite E.
  - destruct (q (NDocument cs)); [reflexivity|]. f_equal. apply map_ext_Forall, IH.
  - destruct (q (NElem name ns attrs cs tc)); [reflexivity|]. f_equal; [apply map_ext_Forall, IH|]. destruct tc as [l|]; [|reflexivity]. f_equal. apply map_ext_Forall, IHt. reflexivity.
Qed.
Theorem C57_empty sel n : local sel -> apply_walk [TEmpty sel] n = Some (inside (fun c => [emptied (elements_that sel) c]) n).
Proof.
  intros L. rewrite apply_walk_local; [|discriminate|constructor; [exact L|constructor]]. f_equal. apply inside_ext. intros x. rewrite empty_spec. f_equal. apply emptied_ext, elem_and_that.
Qed.
Print Assumptions C57_empty.

(* SetAttrs(selector, ...): only attributes of matching elements change ... *)
Theorem C57_set_attrs sel patch n : local sel ->
  apply_walk [TSetAttrs sel patch] n = Some (inside (fun c => [relabelled (fun n => if sel n then set_attrs (node_attrs n) patch else node_attrs n) c]) n).
Proof. intros L. rewrite apply_walk_local; [|discriminate|constructor; [exact L|constructor]]. f_equal. apply inside_ext, set_spec. Qed.
Print Assumptions C57_set_attrs.
(* ... to the given values; the other attributes keep theirs *)
Theorem C57_set_values attrs patch k v : NoDup (map fst patch) -> In (k, Some v) patch -> attr_get k (set_attrs attrs patch) = Some (Some v).
Proof.
  intros ND I. pose proof (set_attrs_get k (Some v) patch ND I attrs) as H. destruct (attr_get k (set_attrs attrs patch)) as [w|]; cbn [value_of] in H; [congruence|discriminate H].
Qed.
Print Assumptions C57_set_values.
Theorem C57_set_others attrs patch k : ~ In k (map fst patch) -> attr_get k (set_attrs attrs patch) = attr_get k attrs.
Proof. intros H. apply set_attrs_other, H. Qed.
Print Assumptions C57_set_others.
(* "Passing None creates a boolean attribute": only where the attribute is there already *)
Theorem C57_set_none_partial attrs patch k : NoDup (map fst patch) -> In (k, None) patch -> attr_get k attrs <> None -> attr_get k (set_attrs attrs patch) = Some None.
Proof.
  intros ND I H. pose proof (set_attrs_get k None patch ND I attrs) as V.
  assert (P : attr_get k (set_attrs attrs patch) <> None).
  { clear -H. unfold set_attrs. revert attrs H. induction patch as [|kv patch IH]; intros attrs H; [exact H|]. cbn [fold_left]. apply IH, set_attr_has, H. }
  destruct (attr_get k (set_attrs attrs patch)) as [w|]; [cbn [value_of] in V; congruence|congruence].
Qed.
Print Assumptions C57_set_none_partial.
Theorem C57_set_none_refuted : exists n, apply_walk [TSetAttrs (tag "input") [(u "disabled", None)]] n = Some n /\ n = NDocument [el "input" []].
Proof. eexists. split; [|reflexivity]. reflexivity. Qed.
Print Assumptions C57_set_none_refuted.

(* EditAttrs(selector, func): attributes of matching elements become what the callback returned, unless it returned None *)
Theorem C57_edit_attrs sel f n : local f -> (match sel with Some s => local s | None => True end) ->
  apply_walk [TEditAttrs sel [f]] n = Some (inside (fun c => [relabelled
    (fun n => if match sel with None => true | Some s => s n end then match f n with Some a => a | None => node_attrs n end else node_attrs n) c]) n).
Proof.
  intros L S0. rewrite apply_walk_local; [|discriminate|]. { f_equal. apply inside_ext, edit_spec. }
  constructor; [|constructor]. split; [destruct sel; exact S0|]. intros g [<-|[]]. exact L.
Qed.
Print Assumptions C57_edit_attrs.
(* two adjacent EditAttrs("[x]", ...) are fused into one: the second callback edits elements that no longer match after the first *)
Theorem C57_edit_chain_refuted : exists sel f g n, apply_walk [TEditAttrs (Some sel) [f; g]] n = Some (NDocument [NElem (u "p") (Some (u "html")) [(u "z", None)] [] None]) /\
  one_by_one [TEditAttrs (Some sel) [f]; TEditAttrs (Some sel) [g]] n = Some (NDocument [el "p" []]) /\
  (forall x, sel x = attr_has (u "x") (node_attrs x)) /\ (forall x, f x = Some []) /\ (forall x, g x = Some [(u "z", None)]) /\
  n = NDocument [NElem (u "p") (Some (u "html")) [(u "x", None)] [] None].
Proof.
  exists (fun x => attr_has (u "x") (node_attrs x)), (fun _ => Some []), (fun _ => Some [(u "z", None)]), (NDocument [NElem (u "p") (Some (u "html")) [(u "x", None)] [] None]).
  repeat split; reflexivity.
Qed.
Print Assumptions C57_edit_chain_refuted.

(* Decide(selector, callback) with UNWRAP replaces every such element by its content ... *)
Lemma unwrapped_ext p q n : (forall x, p x = q x) -> unwrapped p n = unwrapped q n.
Proof.
  intros E. induction n as [d|d|d|d|cs IH|name ns attrs cs tc IH IHt] using node_ind'; cbn [unwrapped]; rewrite E; try reflexivity; rewrite (flat_ext_F _ _ _ IH); [reflexivity|].
  destruct tc as [l|]; [rewrite (flat_ext_F _ _ _ (IHt l eq_refl))|]; reflexivity.
Qed.
Theorem C57_decide_unwrap sel (p : node -> bool) n : local sel -> local p ->
  apply_walk [TDecide (Some sel) [fun n => if p n then AUnwrap else AKeep]] n = Some (inside (unwrapped (elements_that (fun n => sel n && p n))) n).
Proof.
  intros L1 L2. rewrite apply_walk_local; [|discriminate|constructor; [split; [exact L1|]; intros f [<-|[]] a b H; rewrite (L2 _ _ H); reflexivity|constructor]].
  f_equal. apply inside_ext. intros x. rewrite decide_unwrap_spec. apply unwrapped_ext. intros y. destruct y; reflexivity.
Qed.
Print Assumptions C57_decide_unwrap.
Lemma unwrapped_clean p n : local p -> forall m, In m (unwrapped p n) -> clean p m.
Proof.
  intros L.
  assert (CL : forall l, Forall (fun n => forall m, In m (unwrapped p n) -> clean p m) l -> forall c, In c (flat_map (unwrapped p) l) -> clean p c)
    by (intros l F c I; apply in_flat_map in I as (c0 & I0 & I1); rewrite Forall_forall in F; exact (F c0 I0 c I1)).
  induction n as [d|d|d|d|cs IH|name ns attrs cs tc IH IHt] using node_ind'; intros m I; cbn [unwrapped] in I.
  - destruct (p (NText d)) eqn:E; [destruct I|]. destruct I as [<-|[]]. apply clean_leaf; [exact E|]. intros x W. inversion W. reflexivity.
  - destruct (p (NComment d)) eqn:E; [destruct I|]. destruct I as [<-|[]]. apply clean_leaf; [exact E|]. intros x W. inversion W. reflexivity.
  - destruct (p (NPI d)) eqn:E; [destruct I|]. destruct I as [<-|[]]. apply clean_leaf; [exact E|]. intros x W. inversion W. reflexivity.
  - destruct (p (NDoctype d)) eqn:E; [destruct I|]. destruct I as [<-|[]]. apply clean_leaf; [exact E|]. intros x W. inversion W. reflexivity.
  - destruct (p (NDocument cs)) eqn:E; [exact (CL cs IH m I)|]. destruct I as [<-|[]]. intros x W. inversion W as [|c cs0 I W2| |]; subst; [rewrite <- E; apply L; constructor|exact (CL cs IH c I x W2)].
  - destruct (p (NElem name ns attrs cs tc)) eqn:E.
    + apply in_app_or in I as [I|I]; [exact (CL cs IH m I)|]. destruct tc as [l|]; [exact (CL l (IHt l eq_refl) m I)|destruct I].
    + destruct I as [<-|[]]. intros x W. inversion W as [| |c nm ns0 at0 cs0 tc0 I W2|c nm ns0 at0 cs0 l0 I W2]; subst.
      * rewrite <- E. apply L. constructor.
      * exact (CL cs IH c I x W2).
      * destruct tc as [l|]; [|discriminate]. assert (l0 = flat_map (unwrapped p) l) as -> by congruence. exact (CL l (IHt l eq_refl) c I x W2).
Qed.
(* ... and none is left *)
Theorem C57_decide_unwrap_complete sel (p : node -> bool) cs n' : local sel -> local p ->
  apply_walk [TDecide (Some sel) [fun n => if p n then AUnwrap else AKeep]] (NDocument cs) = Some n' -> forall x, within x n' -> elements_that (fun n => sel n && p n) x = false.
Proof.
  intros L1 L2 H x W. rewrite (C57_decide_unwrap sel p _ L1 L2) in H. injection H as <-. inversion W as [|c cs0 I W2| |]; subst; [reflexivity|].
  apply in_flat_map in I as (c0 & I0 & I1). refine (unwrapped_clean _ c0 _ c I1 x W2). intros a b H. destruct H as [|k1 k2|nm ns at0 k1 k2 t1 t2]; try reflexivity. cbn [elements_that]. rewrite (L1 _ _ (h_element nm ns at0 k1 k2 t1 t2)), (L2 _ _ (h_element nm ns at0 k1 k2 t1 t2)). reflexivity.
Qed.
Print Assumptions C57_decide_unwrap_complete.
(* Unwrap(selector) should do that too, but does not look at the children it has just hoisted: *)
Theorem C57_unwrap_partial sel n : local sel -> apply_walk [TUnwrap sel] n = Some (inside (half_unwrapped sel false) n).
Proof. intros L. rewrite apply_walk_local; [|discriminate|constructor; [exact L|constructor]]. f_equal. apply inside_ext. intros x. apply unwrap_spec. Qed.
Print Assumptions C57_unwrap_partial.
(* Unwrap("span") on <span><span>x</span></span> leaves a span *)
Theorem C57_unwrap_nested_refuted : exists n, n = NDocument [el "span" [el "span" [NText (u "x")]]] /\
  apply_walk [TUnwrap (tag "span")] n = Some (NDocument [el "span" [NText (u "x")]]) /\
  inside (unwrapped (tag "span")) n = NDocument [NText (u "x")].
Proof. eexists. split; [reflexivity|split; reflexivity]. Qed.
Print Assumptions C57_unwrap_nested_refuted.
(* where no matching element is a child of another, it is what it should be *)
Definition no_nested (sel : node -> bool) (n : node) : Prop := forall m c, within m n -> sel m = true -> In c (all_children m) -> sel c = false.
Lemma half_full sel n : (forall d, sel (NText d) = false) -> (forall d, sel (NComment d) = false) -> (forall d, sel (NPI d) = false) -> (forall d, sel (NDoctype d) = false) -> (forall cs, sel (NDocument cs) = false) ->
  no_nested sel n -> half_unwrapped sel false n = unwrapped sel n /\ (sel n = false -> half_unwrapped sel true n = unwrapped sel n).
Proof.
  intros S1 S2 S3 S4 S5. induction n as [d|d|d|d|cs IH|name ns attrs cs tc IH IHt] using node_ind'; intros H; cbn [half_unwrapped unwrapped]; rewrite ?S1, ?S2, ?S3, ?S4, ?S5; try (split; reflexivity).
  - assert (A : flat_map (half_unwrapped sel false) cs = flat_map (unwrapped sel) cs).
    { apply flat_ext_F. rewrite Forall_forall in *. intros c I. apply (IH c I). intros m k W. apply H. exact (w_document _ c cs I W). }
    rewrite A. split; reflexivity.
  - assert (F : forall l, (forall c, In c l -> (forall m, within m c -> within m (NElem name ns attrs cs tc))) -> Forall (fun n => no_nested sel n -> half_unwrapped sel false n = unwrapped sel n /\ (sel n = false -> half_unwrapped sel true n = unwrapped sel n)) l ->
      flat_map (half_unwrapped sel false) l = flat_map (unwrapped sel) l /\ ((forall c, In c l -> sel c = false) -> flat_map (half_unwrapped sel true) l = flat_map (unwrapped sel) l)).
    { intros l W F. rewrite Forall_forall in F. split; [|intros Hs]; apply flat_ext_F; rewrite Forall_forall; intros c I; destruct (F c I) as [F1 F2]; try (intros m k Wm; apply H; exact (W c I m Wm)); [exact F1|exact (F2 (Hs c I))]. }
    destruct (F cs (fun c I m W => w_child _ c _ _ _ _ _ I W) IH) as [A1 A2].
    assert (B : match tc with Some l => flat_map (half_unwrapped sel false) l = flat_map (unwrapped sel) l /\ ((forall c, In c l -> sel c = false) -> flat_map (half_unwrapped sel true) l = flat_map (unwrapped sel) l) | None => True end).
    { destruct tc as [l|]; [|exact Logic.I]. apply F; [intros c I m W; exact (w_template _ c _ _ _ _ _ I W)|apply IHt; reflexivity]. }
    cbn [negb andb]. destruct (sel (NElem name ns attrs cs tc)) eqn:E.
    + assert (K : forall c, In c (all_children (NElem name ns attrs cs tc)) -> sel c = false) by (intros c I; exact (H _ c (w_self _) E I)).
      split; [|discriminate]. rewrite A2 by (intros c I; apply K; cbn [all_children]; apply in_or_app; left; exact I). destruct tc as [l|]; [|reflexivity].
      rewrite (proj2 B) by (intros c I; apply K; cbn [all_children]; apply in_or_app; right; exact I). reflexivity.
    + rewrite A1. destruct tc as [l|]; [rewrite (proj1 B)|]; split; reflexivity.
Qed.
Theorem C57_unwrap_flat sel n : local sel -> (forall m, sel m = true -> exists name ns attrs cs tc, m = NElem name ns attrs cs tc) ->
  (forall c, In c (all_children n) -> no_nested sel c) -> apply_walk [TUnwrap sel] n = Some (inside (unwrapped sel) n).
Proof.
  intros L He Hn. rewrite (C57_unwrap_partial sel n L). f_equal.
  assert (S0 : forall m, (match m with NElem _ _ _ _ _ => False | _ => True end) -> sel m = false).
  { intros m Hm. destruct (sel m) eqn:E; [|reflexivity]. destruct (He m E) as (? & ? & ? & ? & ? & ->). destruct Hm. }
  assert (K : forall l, (forall c, In c l -> no_nested sel c) -> flat_map (half_unwrapped sel false) l = flat_map (unwrapped sel) l).
  { intros l H. apply flat_ext_F, Forall_forall. intros c I. apply half_full; try (intros; apply S0; exact Logic.I). exact (H c I). }
  destruct n as [d|d|d|d|cs|name ns attrs cs tc]; try reflexivity; cbn [inside]; cbn [all_children] in Hn.
  - rewrite K by exact Hn. reflexivity.
  - rewrite K by (intros c I; apply Hn, in_or_app; left; exact I). destruct tc as [l|]; [|reflexivity]. rewrite K by (intros c I; apply Hn, in_or_app; right; exact I). reflexivity.
Qed.
Print Assumptions C57_unwrap_flat.

(* Pipelines of SetAttrs, Unwrap, EditAttrs, DropComments, DropDoctype and (element) Decide transforms that only keep or unwrap leave the
   text as it is - with any selectors and callbacks. *)
Theorem C57_text_kept ts n n' l : Forall keeps_text ts -> apply_walk ts n = Some n' -> texts n l -> texts n' l.
Proof. intros K H T. rewrite (texts_unique n l T), <- (apply_texts ts n n' K H). apply texts_exist. Qed.
Print Assumptions C57_text_kept.

(* ---------- cases that meet the hypotheses ---------- *)
Example C57_batch_case : exists ts n, Forall local_t ts /\ (match ts with [] => True | _ :: rest => Forall (fun t => ~ hoists t) rest end) /\
  apply_walk ts n = Some (NDocument [NElem (u "p") (Some (u "html")) [(u "id", Some (u "x"))] [NText (u "a"); NText (u "c")] None]) /\
  n = NDocument [el "p" [el "span" [NText (u "a"); el "b" [NText (u "q")]]; NComment (u "z"); NText (u "c")]].
Proof.
  exists [TUnwrap (tag "span"); TDrop (tag "b"); TSetAttrs (tag "p") [(u "id", Some (u "x"))]; TDropComments]. eexists. split; [|split; [|split; [|reflexivity]]].
  - repeat constructor; apply tag_local.
  - repeat constructor; intros [].
  - reflexivity.
Qed.
Example C57_keeps_case : Forall keeps_text [TUnwrap (tag "span"); TSetAttrs (tag "p") []; TDecide (Some (tag "i")) [fun n => if tag "i" n then AUnwrap else AKeep]].
Proof. constructor; [exact Logic.I|]. constructor; [exact Logic.I|]. constructor; [|constructor]. intros f n [<-|[]]. destruct (tag "i" n); [right|left]; reflexivity. Qed.
Example C57_no_nested_case : forall c, In c (all_children (NDocument [el "span" [el "b" [NText (u "x")]]])) -> no_nested (tag "span") c.
Proof.
  intros c [<-|[]] m k W E I. unfold el in W. inversion W as [| |c nm ns0 at0 cs0 tc0 J W2|]; subst.
  - destruct I as [<-|[]]. reflexivity.
  - destruct J as [<-|[]]. inversion W2 as [| |c nm ns0 at0 cs0 tc0 J W3|]; subst; [discriminate E|]. destruct J as [<-|[]]. inversion W3; subst. discriminate E.
Qed.
