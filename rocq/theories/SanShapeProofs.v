(* C22, C24: exactly which nodes are kept. *)
From Coq Require Import Lia.
From Verif Require Import Str StrFacts SerializerModel UrlModel CssModel SanModel SanSpec SanFacts SanFuel SanProofs SanAttrProofs SanTreeProofs SanDropProofs SanContentProofs SanCleanProofs SanIdemTree.
Open Scope N_scope.

Section Shape.
Variable py : urllib.
Variable p : policy.
Hypothesis Hesc : disallowed_tag_handling p <> TEscape.

Lemma kept_mark k n : kept_nodes p (mark_start k n) = kept_nodes p n.
Proof. destruct n; reflexivity. Qed.
Lemma kept_hoisted k ch tc : flat_map (kept_nodes p) (hoisted k ch tc) = (flat_map (kept_nodes p) ch ++ match tc with Some l => flat_map (kept_nodes p) l | None => [] end)%list.
Proof.
  unfold hoisted. assert (G : forall l, flat_map (kept_nodes p) (map (mark_start k) l) = flat_map (kept_nodes p) l).
  { induction l as [|n l IH]; [reflexivity|]. cbn [map flat_map]. rewrite kept_mark, IH. reflexivity. }
  rewrite G, flat_map_app. destruct tc; reflexivity.
Qed.
Lemma erase_fresh n : erase (fresh n) = erase n.
Proof.
  induction n as [i name ns attrs ch tc H1 H2 | i d | i d | i d | i d | i name ch H1] using node_ind2; cbn [fresh erase]; try reflexivity.
  - f_equal.
    + rewrite map_map. apply map_ext_Forall. exact H1.
    + destruct tc as [l|]; [|reflexivity]. cbn [option_map]. f_equal. rewrite map_map. apply map_ext_Forall. exact (H2 _ eq_refl).
  - f_equal. rewrite map_map. apply map_ext_Forall. exact H1.
Qed.
Lemma flat_map_Forall {A B} (f g : A -> list B) l : Forall (fun x => f x = g x) l -> flat_map f l = flat_map g l.
Proof. induction 1 as [|x l H _ IH]; [reflexivity|]. cbn [flat_map]. rewrite H, IH. reflexivity. Qed.
Lemma flat_map_map {A B C} (g : A -> B) (f : B -> list C) l : flat_map f (map g l) = flat_map (fun x => f (g x)) l.
Proof. induction l as [|x l IH]; [reflexivity|]. cbn [map flat_map]. rewrite IH. reflexivity. Qed.
Lemma kept_fresh n : kept_nodes p (fresh n) = kept_nodes p n.
Proof.
  induction n as [i name ns attrs ch tc H1 H2 | i d | i d | i d | i d | i name ch H1] using node_ind2; cbn [fresh kept_nodes]; try reflexivity.
  - assert (G : forall l, Forall (fun n => kept_nodes p (fresh n) = kept_nodes p n) l -> flat_map (kept_nodes p) (map fresh l) = flat_map (kept_nodes p) l).
    { intros l H. rewrite flat_map_map. apply flat_map_Forall. exact H. }
    rewrite (G ch H1). destruct tc as [l|]; cbn [option_map]; [rewrite (G l (H2 _ eq_refl))|]; reflexivity.
  - rewrite flat_map_map. rewrite (flat_map_Forall _ (kept_nodes p)); [reflexivity|exact H1].
Qed.
Lemma nf_mark k n : All not_foreign n -> All not_foreign (mark_start k n).
Proof. apply All_set_info. split; intros; try exact I; [assumption|]. destruct n0; assumption. Qed.

Lemma walks_kept doc ctx done pending out fs : Walks py p doc ctx done pending out fs -> ctx = false -> Forall top1 pending -> Forall (All not_foreign) pending ->
  map erase out = (map erase done ++ flat_map (kept_nodes p) pending)%list.
Proof.
  intros H. induction H using Walks_ind2 with (P0 := fun ctx tc tc' fs _ => ctx = false -> (forall l, tc = Some l -> Forall top1 l) -> (forall l, tc = Some l -> Forall (All not_foreign) l) ->
    option_map (map erase) tc' = option_map (flat_map (kept_nodes p)) tc).
  all: try (intros -> T D; repeat match goal with H : Forall _ (_ :: _) |- _ => apply Forall_cons_iff in H; destruct H end).
  all: try match goal with H : top1 ?x, D : All not_foreign ?x |- _ => destruct H as [Tm Tk];
    assert (NF : foreign_here x = false) by (apply All_self in D; destruct x; try reflexivity; cbn [not_foreign] in D; destruct (foreign_here _) eqn:F; [apply foreign_here_spec in F; contradiction|reflexivity]);
    rewrite NF in *; cbn [orb] in * end.
  all: try match type of e with run _ _ (mark (info_of ?x)) _ _ _ = _ =>
    destruct x as [i0 name0 ns0 attrs0 ch0 tc0 | i0 d0 | i0 d0 | i0 d0 | i0 d0 | i0 name0 ch0]; cbn [info_of] in *;
    [rewrite run_El in e by exact Tm; rewrite Bool.andb_false_r in e; unfold decide in e
    |destruct (run_text py p (mark i0) false i0 d0) as (d1 & g & E & _ & G); destruct (G ltac:(lia)) as [G1 _]; rewrite E in e; try discriminate e
    |rewrite (run_comment py p _ _ (Cm i0 d0) i0 d0) in e by auto
    |rewrite (run_comment py p _ _ (Pi i0 d0) i0 d0) in e by auto
    |rewrite run_doctype in e by auto
    |rewrite run_Fr in e; try discriminate e] end.
  all: try match type of e with context [if in_strs ?a (allowed_tags p) then _ else _] => destruct (in_strs a (allowed_tags p)) eqn:EA;
     [apply bind_Ok in e; destruct e as (? & ? & ? & ? & e & ?); try discriminate e|destruct (in_strs a (drop_content_tags p)) eqn:ED; [|destruct (disallowed_tag_handling p) eqn:EH; [|congruence|]]; try discriminate e] end.
  all: try match type of e with context [if pol_drop_comments p then _ else _] => destruct (pol_drop_comments p) eqn:EC; [destruct (disallowed_tag_handling p) eqn:EH|]; try congruence; try discriminate e end.
  all: try match type of e with context [if pol_drop_doctype p then _ else _] => destruct (pol_drop_doctype p) eqn:EC; try discriminate e end.
  all: cbn [flat_map kept_nodes]; rewrite ?EA, ?ED, ?EH, ?EC, ?app_nil_r; cbn [app]; auto.
  all: try (match type of e with context [hoisted 1 ?c ?t] => pose proof (kept_hoisted 1 c t) as Hh; destruct (hoisted 1 c t) as [|hh hhs] eqn:Eh; try discriminate e end).
  all: try rewrite <- Hh.
  - (* Gone: nothing to hoist *) cbn [flat_map app]. apply IHWalks; auto.
  - (* Repl *) assert (l = hh :: hhs) as -> by congruence. rewrite <- Eh in *. rewrite flat_map_app in IHWalks. apply IHWalks; [reflexivity| |].
    + apply Forall_app. split; [|assumption]. cbn [kids] in Tk. destruct Tk as [K1 K2]. unfold hoisted. apply Forall_map. apply Forall_app. split.
      * eapply Forall_impl; [|exact K1]. intros x Hx. apply mark1_top1. exact Hx.
      * destruct tc0 as [l0|]; [|constructor]. eapply Forall_impl; [|exact (K2 _ eq_refl)]. intros x Hx. apply mark1_top1. exact Hx.
    + apply Forall_app. split; [|assumption]. match goal with H : All not_foreign (El _ _ _ _ _ _) |- _ => apply All_El_inv in H; destruct H as (_ & K1 & K2) end.
      unfold hoisted. apply Forall_map. apply Forall_app. split.
      * eapply Forall_impl; [|exact K1]. intros x Hx. apply nf_mark. exact Hx.
      * destruct tc0 as [l0|]; [|constructor]. eapply Forall_impl; [|exact (K2 _ eq_refl)]. intros x Hx. apply nf_mark. exact Hx.
  - (* kept element *) assert (i0 = i /\ name0 = name /\ ns0 = ns /\ ch0 = ch /\ tc0 = tc) as (-> & -> & -> & -> & ->) by (repeat split; congruence).
    assert (Z : forall l, Forall (All mark_zero) l -> Forall top1 l) by (intros l Hl; eapply Forall_impl; [|exact Hl]; exact zero_top1).
    cbn [kids] in Tk. destruct Tk as [K1 K2]. match goal with H : All not_foreign (El _ _ _ _ _ _) |- _ => apply All_El_inv in H; destruct H as (_ & F1 & F2) end.
    rewrite IHWalks3 by auto. rewrite map_app, <- app_assoc. cbn [map erase app]. rewrite IHWalks1 by auto. rewrite IHWalks2 by (auto; intros l Hl; apply Z; apply K2; exact Hl). reflexivity.
  - assert (i0 = i /\ name0 = name /\ ch0 = ch) as (-> & -> & ->) by (repeat split; congruence).
    assert (Z : forall l, Forall (All mark_zero) l -> Forall top1 l) by (intros l Hl; eapply Forall_impl; [|exact Hl]; exact zero_top1).
    cbn [kids] in Tk. match goal with H : All not_foreign (Fr _ _ _) |- _ => apply All_Fr_inv in H; destruct H as (_ & F1) end.
    rewrite IHWalks2 by auto. rewrite map_app, <- app_assoc. cbn [map erase app]. rewrite IHWalks1 by auto. reflexivity.
  - exfalso. assert (n' = El i0 name0 ns0 x ch0 tc0) as -> by congruence. contradiction.
  - assert (n' = Tx i0 d1) as -> by congruence. rewrite IHWalks by auto. rewrite map_app, <- app_assoc. cbn [map erase app]. rewrite G1. reflexivity.
  - assert (n' = Cm i0 d0) as -> by congruence. rewrite IHWalks by auto. rewrite map_app, <- app_assoc. reflexivity.
  - assert (n' = Pi i0 d0) as -> by congruence. rewrite IHWalks by auto. rewrite map_app, <- app_assoc. reflexivity.
  - assert (n' = Dt i0 d0) as -> by congruence. rewrite IHWalks by auto. rewrite map_app, <- app_assoc. reflexivity.
  - exfalso. assert (n' = Fr i0 name0 ch0) as -> by congruence. contradiction.
  - cbn [option_map]. f_equal. apply IHWalks; auto.
Qed.
Hypothesis Hraw : no_rawtext p.
Lemma apply_children_kept doc l out fs : Forall (All not_foreign) l -> apply_children py p doc l = Ok out fs -> map erase out = flat_map (kept_nodes p) l.
Proof.
  intros F H. unfold apply_children in H. apply bind_Ok in H. destruct H as (o & f1 & f2 & H1 & H2 & _). rewrite no_rawtext_b in H2 by exact Hraw.
  assert (out = map fresh o) as -> by congruence. rewrite map_map. rewrite (map_ext _ erase erase_fresh). apply walk_Walks in H1. apply walks_kept in H1; [|reflexivity| |].
  - rewrite H1. cbn [map app]. rewrite flat_map_map. apply flat_map_Forall. apply Forall_forall. intros x _. apply kept_fresh.
  - apply Forall_map. apply Forall_forall. intros y _. apply zero_top1. apply fresh_mark_zero.
  - apply Forall_map. eapply Forall_impl; [|exact F]. intros x Hx. clear - Hx.
    induction x as [i name ns attrs ch tc H1 H2 | i d | i d | i d | i d | i name ch H1] using node_ind2; cbn [fresh]; try (apply All_leaf; exact I).
    + apply All_El_inv in Hx. destruct Hx as (A & B & C). apply All_El; [exact A| |].
      * apply Forall_map. rewrite Forall_forall in *. auto.
      * intros l El_. destruct tc as [l0|]; [|discriminate El_]. cbn [option_map] in El_. injection El_ as <-. specialize (H2 _ eq_refl). specialize (C _ eq_refl). apply Forall_map. rewrite Forall_forall in *. auto.
    + apply All_Fr_inv in Hx. destruct Hx as (A & B). apply All_Fr; [exact I|]. apply Forall_map. rewrite Forall_forall in *. auto.
Qed.
Theorem apply_kept n out fs : All not_foreign n -> apply_policy_to_root py p n = Ok out fs -> erase out = kept_root p n.
Proof.
  intros F H. destruct (apply_shape py p n out fs H) as (doc & l & ch & gs & E & D). unfold kept_root.
  destruct D as [(i & name & -> & ->)|(-> & Nf & D)].
  - apply All_Fr_inv in F. destruct F as [_ F]. apply apply_children_kept in E; [|exact F]. cbn [kept_nodes erase]. rewrite E. reflexivity.
  - apply apply_children_kept in E; [|constructor; [exact F|constructor]]. cbn [flat_map] in E. rewrite app_nil_r in E.
    assert (H2 : bind (apply_children py p false [n]) (fun ch' => match ch' with [only] => Ok only [] | _ => Ok (Fr no_info (u "#document-fragment") ch') [] end) = Ok out fs)
      by (destruct n; try exact H; exfalso; eapply Nf; reflexivity).
    apply bind_Ok in H2. destruct H2 as (ch' & g1 & g2 & H2 & H3 & _). apply apply_children_kept in H2; [|constructor; [exact F|constructor]]. cbn [flat_map] in H2. rewrite app_nil_r in H2.
    rewrite <- H2. destruct ch' as [|c [|c2 r]]; cbn [map].
    + assert (out = Fr no_info (u "#document-fragment") []) as -> by congruence. reflexivity.
    + assert (out = c) as -> by congruence. reflexivity.
    + assert (out = Fr no_info (u "#document-fragment") (c :: c2 :: r)) as -> by congruence. reflexivity.
Qed.
End Shape.
