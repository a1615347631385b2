(* PROOFS for C66, part 5: start tags as a whole *)
From Coq Require Import List Arith Bool String Lia.
From Verif Require Import Str StrFacts SerTreeProofs.
From Verif Require Import AaaModel GuardModel CloseModel CloseSpec CloseProofs1 CloseProofs2 CloseProofs3 CloseProofs4.
Import ListNotations.
Open Scope string_scope. Open Scope list_scope. Open Scope nat_scope.

Lemma def_shape : forall l, close_item definition l = or_same (find_p definition stops_item l) l.
Proof.
  intros l. apply close_item_cut; intros; unfold definition, is in *;
      first [ match goal with H : (_ && _ || _ && _) = true |- html ?e = true => destruct (html e); [reflexivity|exact H] end
            | match goal with J : en _ = en _, H : html ?x = true |- _ => rewrite J, H; match goal with D : _ = true |- (true && str_eqb (en ?e) _ || _) = true => destruct (html e); [exact D|discriminate] end end].
Qed.
Lemma li_shape : forall l, close_item (is "li") l = or_same (find_p (is "li") stops_item l) l.
Proof.
  intros l. apply close_item_cut; intros; first [eapply is_html; eassumption | unfold is; match goal with H : is "li" _ = true, J : en _ = en _ |- _ => rewrite J, (is_name _ _ H) end; match goal with H : html _ = true |- _ => rewrite H end; vm_compute; reflexivity].
Qed.
Lemma def_std : forall l, inv l -> sound_top l = true -> reaches definition stops_item l || negb (reaches definition dl_stop l) = true ->
  or_same (find_p definition dl_stop (close_p l)) (close_p l) = close_p (close_item definition l).
Proof.
  intros l I S K. rewrite def_shape. apply item_p; try assumption.
  - exact def_block.
  - intros e Oe H B Sc. unfold dl_stop. rewrite H, (ends_html _ _ H). cbn [andb]. change (scope_names ["dl"]) with ([u "dl"] ++ scope_names []). rewrite in_strs_app. rewrite (not_block_names e [u "dl"] H B ltac:(vm_compute; reflexivity)). cbn [orb].
    refine (not_in_sub (scope_names ["button"]) _ _ _ _); [vm_compute; reflexivity|]. rewrite <- (ends_html _ _ H). exact Sc.
  - intros e P. unfold dl_stop. rewrite (ends_html _ _ (is_html _ _ P)), (is_name _ _ P), (is_html _ _ P). vm_compute. reflexivity.
  - exact (def_find l K).
Qed.

(* ---- what the rules of "in body" leave ---- *)
Lemma sound_generate : forall x l, chained l -> bottom l -> sound_top l = true -> sound_top (generate x l) = true.
Proof.
  intros x. induction l as [|e t IH]; intros C B S; [exact S|]. cbn [generate]. destruct (html e && _ && negb (x e)) eqn:G; [|exact S].
  apply andb_true_iff in G. destruct G as [G _]. apply andb_true_iff in G. destruct G as [H G]. destruct C as [C C'].
  assert (bottom t) as B'. { apply (bottom_tail e t B). intros ->. vm_compute in G. discriminate. }
  apply IH; [exact C'|exact B'|apply C; [exact H|apply bottom_ne; exact B']].
Qed.
Definition good (l : stack) : Prop := inv l /\ sound_top l = true.
Lemma good_cut : forall p b l, good l -> (forall e, p e = true -> html e = true) -> p the_body = false -> p the_html = false -> good (cut p b l).
Proof. intros p b l [I S] H B K. split; [apply inv_cut; assumption|apply sound_cut; assumption]. Qed.
Lemma good_close_p : forall l, good l -> good (close_p l).
Proof. intros l G. rewrite close_p_cut. apply good_cut; [exact G|apply is_html|reflexivity|reflexivity]. Qed.
Lemma good_generate : forall x l, good l -> good (generate x l).
Proof. intros x l [I S]. split; [eapply inv_suffix; [apply generate_suffix|exact I|apply bottom_generate; exact (i_bottom l I)]|apply sound_generate; [exact (i_chain l I)|exact (i_bottom l I)|exact S]]. Qed.
Lemma definition_html : forall e, definition e = true -> html e = true.
Proof. intros e H. unfold definition in H. apply orb_true_iff in H. destruct H as [H|H]; exact (is_html _ _ H). Qed.
Lemma good_pop : forall e t, good (e :: t) -> html e = true -> e <> the_body -> good t.
Proof.
  intros e t [I S] H N. assert (bottom t) as B by (apply (bottom_tail e t (i_bottom _ I) N)). split; [eapply inv_suffix; [apply suffix_cons|exact I|exact B]|].
  destruct (i_chain _ I) as [C _]. apply C; [exact H|apply bottom_ne; exact B].
Qed.
Lemma heading_not_body : forall e, heading e = true -> e <> the_body.
Proof. intros e H ->. vm_compute in H. discriminate. Qed.
Lemma heading_html : forall e, heading e = true -> html e = true.
Proof. intros e H. unfold heading in H. apply andb_true_iff in H. exact (proj1 H). Qed.
Lemma good_before : forall name l, good l -> good (before_insertion name l).
Proof.
  intros name l G. unfold before_insertion.
  destruct (one_of closes_p name); [exact (good_close_p l G)|].
  destruct (one_of ["h1"; "h2"; "h3"; "h4"; "h5"; "h6"] name).
  { pose proof (good_close_p l G) as G'. destruct (close_p l) as [|e t]; [exact G'|]. destruct (heading e) eqn:H; [|exact G']. exact (good_pop e t G' (heading_html e H) (heading_not_body e H)). }
  destruct (one_of ["li"] name). { apply good_close_p. rewrite li_shape. apply (good_cut (is "li") stops_item l G); [apply is_html|reflexivity|reflexivity]. }
  destruct (one_of ["dd"; "dt"] name). { apply good_close_p. rewrite def_shape. apply (good_cut definition stops_item l G); [apply definition_html|reflexivity|reflexivity]. }
  destruct (one_of ["button"] name).
  { pose proof (good_cut (is "button") (ends_scope []) l G (is_html _) eq_refl eq_refl) as C. rewrite cut_std in C. unfold in_scope. destruct (reaches _ _ l); [|exact C]. rewrite never_until; [exact C|]. intros e P. rewrite (is_name _ _ P). vm_compute. reflexivity. }
  destruct (one_of ["rb"; "rtc"] name); [destruct (in_scope _ _ l); [apply good_generate|]; exact G|].
  destruct (one_of ["rp"; "rt"] name); [destruct (in_scope _ _ l); [apply good_generate|]; exact G|]. exact G.
Qed.
Lemma before_no_p : forall name l, good l -> ordinary name = true -> in_strs name p_closing = true -> in_scope (is "p") ["button"] (before_insertion name l) = false.
Proof.
  intros name l G Or P. unfold before_insertion, one_of.
  destruct (in_strs name (map u closes_p)) eqn:C1; [exact (after_close_p l (i_para l (proj1 G)))|].
  destruct (in_strs name (map u ["h1"; "h2"; "h3"; "h4"; "h5"; "h6"])) eqn:C2.
  { pose proof (after_close_p l (i_para l (proj1 G))) as A. destruct (close_p l) as [|e t]; [exact A|]. destruct (heading e) eqn:H; [|exact A]. unfold in_scope in *. cbn [reaches] in A. apply orb_false_iff in A. destruct A as [_ A].
    rewrite (ends_html _ _ (heading_html e H)) in A. unfold heading in H. apply andb_true_iff in H. destruct H as [_ H]. unfold one_of in H. rewrite (in_apart _ _ H (scope_names ["button"]) ltac:(vm_compute; reflexivity)) in A. exact A. }
  assert (nopara (close_item (is "li") l) /\ nopara (close_item definition l)) as [N1 N2].
  { rewrite li_shape, def_shape. split; apply i_para; [apply (good_cut (is "li") stops_item l G (is_html _) eq_refl eq_refl)|apply (good_cut definition stops_item l G definition_html eq_refl eq_refl)]. }
  destruct (in_strs name (map u ["li"])) eqn:C3; [exact (after_close_p _ N1)|].
  destruct (in_strs name (map u ["dd"; "dt"])) eqn:C4; [exact (after_close_p _ N2)|].
  exfalso. pose proof (in_sub _ _ P (map u closes_p ++ map u ["h1"; "h2"; "h3"; "h4"; "h5"; "h6"] ++ map u ["li"] ++ map u ["dd"; "dt"] ++ other_rules) ltac:(vm_compute; reflexivity)) as Q.
  rewrite !in_strs_app, C1, C2, C3, C4 in Q. unfold ordinary in Or. cbn [orb] in Q. rewrite Q in Or. discriminate.
Qed.
Lemma before_no_item : forall name l, good l -> in_strs name (map u ["dd"; "dt"]) = true -> ok_body_start name l = true -> reaches definition dl_stop (before_insertion name l) = false.
Proof.
  intros name l [I S] D K. unfold before_insertion, ok_body_start, one_of in *.
  rewrite (in_apart _ _ D (map u closes_p) ltac:(vm_compute; reflexivity)), (in_apart _ _ D (map u ["h1"; "h2"; "h3"; "h4"; "h5"; "h6"]) ltac:(vm_compute; reflexivity)), (in_apart _ _ D (map u ["li"]) ltac:(vm_compute; reflexivity)), D.
  rewrite (in_apart _ _ D (map u ["li"]) ltac:(vm_compute; reflexivity)), D in K. change (fun e : el => html e && ends_scope ["dl"] e) with dl_stop in K. rewrite <- (def_std l I S K).
  assert (inv (close_p l)) as I' by (exact (proj1 (good_close_p l (conj I S)))).
  destruct (find_p definition dl_stop (close_p l)) as [t|] eqn:E; cbn [or_same]; [|apply find_none; exact E].
  destruct (find_parts _ _ _ _ E) as [a [e [L [P _]]]]. pose proof (i_item _ I') as N. rewrite L in N. assert (noitem (e :: t)) as [H _] by (eapply noitem_suffix; [exists a; reflexivity|exact N]). exact (H P).
Qed.

(* ---- the element that is opened ---- *)
Lemma void_same : forall name, in_strs name void_names = void_element name.
Proof. intros name. unfold void_element, one_of. apply same_in. vm_compute. reflexivity. Qed.
Lemma breaks_same : forall name, in_strs name breakout_names = breaks_out name.
Proof. intros name. unfold breaks_out, one_of. apply same_in. vm_compute. reflexivity. Qed.
Lemma by_name_same : forall name, by_name name = namespace_of name.
Proof. intros name. unfold by_name, namespace_of, one_of. change (map u ["svg"]) with [u "svg"]. change (map u ["math"]) with [u "math"]. rewrite !in_one. reflexivity. Qed.
Lemma inv_foreign : forall name ns c l, inv l -> lower name = name -> breaks_out name = false -> ns <> Html -> inv (El (match ns with Svg => svg_name name | _ => name end) ns c :: l).
Proof.
  intros name ns c l [A B C D [a E]] L Br N.
  assert (forall n, html (El n ns c) = false) as H by (intros n; destruct ns; [congruence|reflexivity|reflexivity]).
  constructor.
  - split; [rewrite H; discriminate|exact A].
  - constructor; [|exact B]. unfold okel. rewrite H. exists name. rewrite breaks_same. cbn [en es]. auto.
  - split; [unfold block; rewrite H; discriminate|exact C].
  - split; [|exact D]. unfold definition, is. rewrite H. discriminate.
  - exists (El (match ns with Svg => svg_name name | _ => name end) ns c :: a). rewrite E. reflexivity.
Qed.
Lemma inv_body : forall name c l, good l -> lower name = name -> ordinary name = true -> ok_body_start name l = true -> void_element name = false -> inv (El name Html c :: before_insertion name l).
Proof.
  intros name c l G L Or K V. pose proof (good_before name l G) as [[A B C D [a E]] S]. constructor.
  - split; [intros _ _; exact S|exact A].
  - constructor; [|exact B]. unfold okel. cbn [html es en]. split; [exact L|]. right. rewrite void_same. auto.
  - split; [|exact C]. unfold block, name_in, named. cbn [html es en andb]. intros H. apply before_no_p; [exact G|exact Or|]. apply orb_true_iff in H. destruct H as [H|H]; [exact H|].
    rewrite <- in_one in H. unfold ordinary in Or. rewrite (in_sub _ _ H other_rules ltac:(vm_compute; reflexivity)) in Or. discriminate.
  - split; [|exact D]. intros H. apply before_no_item; [exact G| |exact K]. unfold definition, is in H. cbn [html es en andb] in H. change (map u ["dd"; "dt"]) with ([u "dd"] ++ [u "dt"]). rewrite in_strs_app, !in_one. exact H.
  - exists (El name Html c :: a). rewrite E. reflexivity.
Qed.
Lemma opened_body_inv : forall name c sc l, good l -> lower name = name -> ordinary name = true -> ok_body_start name l = true -> inv (fst (std_body_start name c sc l)).
Proof.
  intros name c sc l G L Or K. pose proof (proj1 (good_before name l G)) as I. unfold std_body_start, opened. cbn [fst].
  assert (namespace_of name <> Html -> breaks_out name = false) as Br.
  { unfold namespace_of, one_of. intros H. destruct (in_strs name (map u ["svg"])) eqn:E1; [(refine (in_apart _ _ E1 _ _); vm_compute; reflexivity)|]. destruct (in_strs name (map u ["math"])) eqn:E2; [(refine (in_apart _ _ E2 _ _); vm_compute; reflexivity)|congruence]. }
  destruct (namespace_of name) eqn:N.
  - destruct (void_element name) eqn:V; [exact I|]. apply inv_body; assumption.
  - destruct sc; [exact I|]. apply (inv_foreign name Svg); [exact I|exact L|apply Br; discriminate|discriminate].
  - destruct sc; [exact I|]. apply (inv_foreign name Math); [exact I|exact L|apply Br; discriminate|discriminate].
Qed.
Lemma good_leave : forall l, inv l -> good (leave_foreign l).
Proof. intros l I. split; [eapply inv_suffix; [apply leave_suffix|exact I|apply bottom_leave; exact (i_bottom l I)]|apply sound_leave; exact (i_bottom l I)]. Qed.
Definition is_annotation (e : el) : bool := match es e with Math => one_of ["annotation-xml"] (en e) | _ => false end.
Lemma rules_sound : forall name l, by_html_rules name l = true -> l <> [] -> sound_top l = true \/ (in_strs name [u "svg"] = true /\ exists e t, l = e :: t /\ is_annotation e = true /\ html e = false).
Proof.
  intros name [|e t] H N; [congruence|]. cbn [by_html_rules sound_top] in *. unfold point. apply orb_true_iff in H. destruct H as [H|H]; [|left; rewrite H, orb_true_r; rewrite orb_true_r; reflexivity].
  apply orb_true_iff in H. destruct H as [H|H].
  - left. apply orb_true_iff in H. destruct H as [H|H]; [rewrite H; reflexivity|]. apply andb_true_iff in H. destruct H as [H _]. rewrite H. apply orb_true_r.
  - right. unfold is_annotation, html, one_of in *. destruct (es e) eqn:E; try discriminate. apply andb_true_iff in H. destruct H as [H K]. split; [exact K|]. exists e, t. rewrite E. auto.
Qed.
Lemma svg_before : forall l, before_insertion (u "svg") l = l.
Proof. reflexivity. Qed.
Lemma svg_name_only : forall name, in_strs name [u "svg"] = true -> name = u "svg".
Proof. intros name H. rewrite in_one in H. apply str_eqb_eq. exact H. Qed.
Theorem start_inv : forall name c sc l, inv l -> lower name = name -> ordinary name = true -> ok_start name l = true -> inv (fst (std_start name c sc l)).
Proof.
  intros name c sc l I L Or K. unfold std_start, ok_start in *. destruct (by_html_rules name l) eqn:R.
  - cbn [orb negb] in K. destruct (rules_sound name l R (bottom_ne l (i_bottom l I))) as [S|[Sv [e [t [E [A F]]]]]].
    + rewrite (leave_sound l S) in K. apply opened_body_inv; [split; assumption|exact L|exact Or|exact K].
    + apply svg_name_only in Sv. subst name. unfold std_body_start. rewrite svg_before. unfold opened. change (namespace_of (u "svg")) with Svg. cbv iota. cbn [fst].
      destruct sc; [exact I|]. apply (inv_foreign (u "svg") Svg); [exact I|vm_compute; reflexivity|vm_compute; reflexivity|discriminate].
  - cbn [orb] in K. destruct (breaks_out name) eqn:B.
    + cbn [negb orb] in K. apply opened_body_inv; [apply good_leave; exact I|exact L|exact Or|exact K].
    + destruct l as [|e t]; [exact I|]. unfold opened. cbn [fst].
      assert (es e <> Html) as N. { intros N. cbn [by_html_rules] in R. unfold html in R. rewrite N in R. discriminate. }
      destruct (match es e with Html => void_element name | _ => sc end); [exact I|]. apply inv_foreign; assumption.
Qed.

(* ---- the code ---- *)
Lemma start_unfold : forall q name c sc l, start_tag q name c sc l =
  let ht := html_text name l in
  let l1 := if ht then before_repair name l else l in
  insert name (in_strs name breakout_names) c sc (if negb ht && negb (in_strs name breakout_names) then l1 else repair q name l1).
Proof.
  intros q name c sc l. unfold start_tag, before_repair. destruct (html_text name l); cbn [andb negb]; reflexivity.
Qed.
Lemma insert_ns : forall name br c sc l ns m, namespace_for name br l = (ns, m) -> insert name br c sc l = opened name c sc ns m.
Proof. intros name br c sc l ns m H. unfold insert, opened. rewrite H. rewrite <- void_same. reflexivity. Qed.
Lemma ns_html_text : forall name br l, html_text name l = true -> namespace_for name br l = (namespace_of name, l).
Proof.
  intros name br [|e t] H; unfold namespace_for; rewrite <- by_name_same; [reflexivity|]. cbn [html_text] in H. destruct (html e); [reflexivity|]. destruct (html_point e); [reflexivity|]. cbn [orb] in H. rewrite H. reflexivity.
Qed.
Lemma ht_sound : forall name l, html_text name l = true -> l <> [] -> sound_top l = true.
Proof.
  intros name [|e t] H N; [congruence|]. cbn [html_text sound_top] in *. rewrite <- boundary_point. unfold foreign_boundary. destruct (html e), (html_point e), (text_point e); try reflexivity; discriminate.
Qed.
Lemma sound_ht : forall name l, sound_top l = true -> in_strs name (map u ["mglyph"; "malignmark"]) = false -> html_text name l = true.
Proof.
  intros name [|e t] H N; [reflexivity|]. cbn [html_text sound_top] in *. rewrite N. rewrite <- boundary_point in H. unfold foreign_boundary in H. destruct (html e), (html_point e), (text_point e); try reflexivity; discriminate.
Qed.
Lemma glyph_before : forall name l, in_strs name (map u ["mglyph"; "malignmark"]) = true -> before_insertion name l = l.
Proof.
  intros name l H. unfold before_insertion, one_of.
  rewrite (in_apart _ _ H (map u closes_p)), (in_apart _ _ H (map u ["h1"; "h2"; "h3"; "h4"; "h5"; "h6"])), (in_apart _ _ H (map u ["li"])), (in_apart _ _ H (map u ["dd"; "dt"])), (in_apart _ _ H (map u ["button"])), (in_apart _ _ H (map u ["rb"; "rtc"])), (in_apart _ _ H (map u ["rp"; "rt"])) by (vm_compute; reflexivity).
  reflexivity.
Qed.
Lemma ns_breaks : forall name l, breaks_out name = true -> bottom l -> namespace_for name true l = (namespace_of name, leave_foreign l).
Proof.
  intros name l B Bt. destruct (sound_top l) eqn:S.
  - rewrite (leave_sound l S). apply ns_html_text. apply sound_ht; [exact S|]. (refine (in_apart _ _ B _ _); vm_compute; reflexivity).
  - destruct l as [|e t]; [destruct (bottom_ne _ Bt eq_refl)|]. cbn [sound_top] in S. rewrite <- boundary_point in S. unfold foreign_boundary in S. unfold namespace_for.
    destruct (html e); [discriminate|]. cbn [orb negb andb] in S. apply orb_false_iff in S. destruct S as [S1 S2]. rewrite S1, S2. cbn [andb negb].
    replace (match es e with Math => _ | _ => false end) with false.
    + rewrite by_name_same, (pop_leave _ Bt). reflexivity.
    + destruct (es e); try reflexivity. rewrite <- in_one. rewrite (in_apart _ _ B [u "svg"] ltac:(vm_compute; reflexivity)). symmetry. apply andb_false_r.
Qed.
Lemma foreign_named : forall n e, okel e -> html e = false -> in_strs (u n) breakout_names = true -> named (u n) e = false.
Proof. intros n e O F B. rewrite (named_is n e O B). unfold is. rewrite F. reflexivity. Qed.
Lemma cut_leave_inv : forall n b l, inv l -> in_strs (u n) breakout_names = true -> (forall e, html e = false -> point e = false -> b e = false) -> named (u n) the_body = false -> named (u n) the_html = false ->
  leave_foreign (cut (named (u n)) b l) = cut (named (u n)) b (leave_foreign l) /\ inv (cut (named (u n)) b l).
Proof.
  intros n b l I B Hb N1 N2. split; [|apply inv_cut; assumption]. apply cut_leave; try assumption; [exact (i_chain l I)|exact (i_bottom l I)|].
  intros e Ie F. apply foreign_named; [|exact F|exact B]. pose proof (i_el l I) as O. rewrite Forall_forall in O. exact (O e Ie).
Qed.
Lemma repair_leave : forall q name l, inv l -> ordinary name = true -> leave_foreign (repair q name l) = repair q name (leave_foreign l) /\ bottom (repair q name l).
Proof.
  intros q name l I Or.
  assert (in_strs name [u "table"] = false) as NT by (apply (not_in_sub other_rules); [vm_compute; reflexivity|unfold ordinary in Or; apply negb_true_iff in Or; exact Or]).
  rewrite in_one in NT.
  assert (forall m, repair q name m =
    let l := if in_strs name p_closing then cut (named (u "p")) pbound m else m in
    if str_eqb name (u "li") then cut (named (u "li")) li_stop l
    else if in_strs name (map u ["dd"; "dt"]) then cut (named (u "dt")) (fun e => html e && name_in definition_scope e) (cut (named (u "dd")) (fun e => html e && name_in definition_scope e) l)
    else if in_strs name headings then match pop_foreign l with e :: t => if name_in headings e then t else e :: t | [] => [] end else l) as RE.
  { intros m. unfold repair. rewrite NT. cbn [andb negb]. rewrite andb_true_r. rewrite <- pclose_cut. unfold pclose, cut, li_stop. rewrite <- !close_li_p, <- !close_until_p. destruct (in_strs name p_closing); reflexivity. }
  rewrite !RE. cbv zeta. clear RE NT.
  set (m := if in_strs name p_closing then cut (named (u "p")) pbound l else l).
  set (m' := if in_strs name p_closing then cut (named (u "p")) pbound (leave_foreign l) else leave_foreign l).
  assert (leave_foreign m = m' /\ inv m) as [M Im].
  { subst m m'. destruct (in_strs name p_closing); [|split; [reflexivity|exact I]]. apply cut_leave_inv; [exact I|vm_compute; reflexivity| |reflexivity|reflexivity].
    intros e F P. unfold pbound. rewrite F, boundary_point. exact P. }
  rewrite <- M. clearbody m m'. clear M m'.
  destruct (str_eqb name (u "li")).
  { pose proof (cut_leave_inv "li" li_stop m Im ltac:(vm_compute; reflexivity)) as [A B]; [|reflexivity|reflexivity|split; [exact A|exact (i_bottom _ B)]]. intros e F _. unfold li_stop, special. rewrite F. reflexivity. }
  destruct (in_strs name (map u ["dd"; "dt"])).
  { pose proof (cut_leave_inv "dd" (fun e => html e && name_in definition_scope e) m Im ltac:(vm_compute; reflexivity)) as [A B]; [|reflexivity|reflexivity|]; [intros e F _; rewrite F; reflexivity|]. rewrite <- A.
    pose proof (cut_leave_inv "dt" (fun e => html e && name_in definition_scope e) _ B ltac:(vm_compute; reflexivity)) as [A' B']; [|reflexivity|reflexivity|split; [exact A'|exact (i_bottom _ B')]]. intros e F _; rewrite F; reflexivity. }
  destruct (in_strs name headings); [|split; [reflexivity|exact (i_bottom m Im)]].
  rewrite (pop_leave m (i_bottom m Im)). rewrite (pop_leave _ (bottom_leave m (i_bottom m Im))). pose proof (good_leave m Im) as G. rewrite (leave_sound (leave_foreign m) (proj2 G)).
  destruct (leave_foreign m) as [|e t] eqn:E; [split; [reflexivity|exact (i_bottom _ (proj1 G))]|]. destruct (name_in headings e) eqn:Hd; [|split; [apply leave_sound; exact (proj2 G)|exact (i_bottom _ (proj1 G))]].
  pose proof (i_el _ (proj1 G)) as O. inversion O; subst. rewrite (headings_is e) in Hd by assumption. pose proof (good_pop e t G (heading_html e Hd) (heading_not_body e Hd)) as G'. split; [apply leave_sound; exact (proj2 G')|exact (i_bottom _ (proj1 G'))].
Qed.
Theorem start_follows : forall q name c sc l, inv l -> lower name = name -> ordinary name = true -> ok_start name l = true -> start_tag q name c sc l = std_start name c sc l.
Proof.
  intros q name c sc l I L Or K. rewrite start_unfold. cbv zeta. pose proof (bottom_ne l (i_bottom l I)) as NE. unfold std_start, ok_start in *. destruct (html_text name l) eqn:HT.
  - pose proof (ht_sound name l HT NE) as S. cbn [negb andb].
    assert (by_html_rules name l = true) as R.
    { destruct l as [|e t]; [reflexivity|]. cbn [html_text by_html_rules] in *. unfold mathml_text_point, html_integration_point, one_of in *. unfold html, html_point, text_point, name_in, named in *.
      destruct (es e); [reflexivity| |].
      - cbn [orb andb] in *. rewrite orb_false_r in HT. exact HT.
      - cbn [orb andb] in HT. change (map u ["annotation-xml"]) with [u "annotation-xml"]. rewrite !in_one. cbn [orb].
        apply orb_true_iff in HT. destruct HT as [HT|HT]; [rewrite HT; apply orb_true_r|]. change (map u ["mglyph"; "malignmark"]) with (map u ["mglyph"; "malignmark"]) in HT. rewrite HT. reflexivity. }
    rewrite R in K |- *. cbn [orb negb] in K. rewrite (leave_sound l S) in K. rewrite (code_body_start q name l I S Or K). apply insert_ns. apply ns_html_text.
    destruct (in_strs name (map u ["mglyph"; "malignmark"])) eqn:Gl; [rewrite (glyph_before name l Gl); exact HT|]. apply sound_ht; [exact (proj2 (good_before name l (conj I S)))|exact Gl].
  - cbn [negb andb]. rewrite breaks_same. destruct (breaks_out name) eqn:B; cbn [negb].
    + assert (by_html_rules name l = false) as R.
      { destruct (by_html_rules name l) eqn:R; [|reflexivity]. exfalso. destruct (rules_sound name l R NE) as [S|[Sv _]].
        - rewrite (sound_ht name l S) in HT; [discriminate|]. (refine (in_apart _ _ B _ _); vm_compute; reflexivity).
        - rewrite (in_apart _ _ B [u "svg"] ltac:(vm_compute; reflexivity)) in Sv. discriminate. }
      rewrite R in K |- *. cbn [orb negb] in K. destruct (repair_leave q name l I Or) as [RL RB]. pose proof (good_leave l I) as [GI GS].
      assert (before_repair name (leave_foreign l) = leave_foreign l) as BR by (apply before_repair_none; (refine (in_apart _ _ B _ _); vm_compute; reflexivity)).
      pose proof (code_body_start q name (leave_foreign l) GI GS Or K) as CB. rewrite BR in CB. unfold std_body_start. rewrite <- CB, <- RL. apply insert_ns. apply ns_breaks; assumption.
    + destruct l as [|e t]; [congruence|]. cbn [html_text] in HT. apply orb_false_iff in HT. destruct HT as [HT T]. apply orb_false_iff in HT. destruct HT as [H P].
      cbn [by_html_rules]. rewrite H. cbn [orb].
      assert (html_integration_point e = false) as HI.
      { unfold html_integration_point, one_of. unfold html_point, name_in, named in P. destruct (es e); [reflexivity|exact P|]. change (map u ["annotation-xml"]) with [u "annotation-xml"]. rewrite in_one. exact P. }
      assert (mathml_text_point e && negb (one_of ["mglyph"; "malignmark"] name) = false) as HM by (unfold mathml_text_point, one_of; unfold text_point, name_in in T; destruct (es e); [reflexivity|reflexivity|exact T]).
      rewrite HI, HM. cbn [orb]. rewrite orb_false_r.
      assert (match es e with Math => one_of ["annotation-xml"] (en e) && one_of ["svg"] name | _ => false end = match es e with Math => named (u "annotation-xml") e && str_eqb name (u "svg") | _ => false end) as AX.
      { unfold one_of, named. change (map u ["annotation-xml"]) with [u "annotation-xml"]. change (map u ["svg"]) with [u "svg"]. rewrite !in_one. reflexivity. }
      rewrite AX. destruct (match es e with Math => named (u "annotation-xml") e && str_eqb name (u "svg") | _ => false end) eqn:A.
      * assert (name = u "svg") as -> by (destruct (es e); try discriminate; apply andb_true_iff in A; destruct A as [_ A]; apply str_eqb_eq; exact A).
        unfold std_body_start. rewrite svg_before. apply insert_ns. unfold namespace_for. rewrite H, P, T, A. reflexivity.
      * apply insert_ns. unfold namespace_for. rewrite H, P, T, A. reflexivity.
Qed.
