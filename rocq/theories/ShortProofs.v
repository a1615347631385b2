(* Proofs about ShortModel *)
From Coq Require Import List Arith Bool String Lia.
From Verif Require Import Str StrFacts SanFacts SanModel SanDefaults AaaModel GuardModel CloseModel CloseSpec CloseProofs1 CloseProofs2 CloseProofs7 ShortModel.
From Verif Require ActionModel ActionProofs.
Import ListNotations.
Open Scope string_scope. Open Scope list_scope. Open Scope nat_scope.

Lemma in_strs_sub n a b : forallb (fun x => in_strs x b) a = true -> in_strs n a = true -> in_strs n b = true.
Proof. intros H I. apply in_strs_In in I. rewrite forallb_forall in H. exact (H n I). Qed.
Lemma closing_flag p scripting name : flag ActionModel.a_p_closing p scripting name = in_strs name p_closing.
Proof.
  assert (E : in_strs name ActionModel.p_closing_tags = in_strs name p_closing).
  { apply Bool.eq_iff_eq_true. split; apply in_strs_sub; reflexivity. }
  unfold flag, ActionModel.plan_action. destruct (in_strs name (ActionModel.known_tags p scripting)) eqn:K; [exact E|].
  rewrite <- E. symmetry. destruct (in_strs name ActionModel.p_closing_tags) eqn:P; [|reflexivity]. unfold ActionModel.known_tags in K. rewrite !in_strs_app, P in K.
  rewrite !orb_true_r in K. cbn [orb] in K. rewrite ?orb_true_r in K. discriminate K.
Qed.
Lemma no_p l : p_count l = 0 -> find_before (u "p") p_scope l = None.
Proof.
  unfold p_count. induction l as [|e l IH]; [reflexivity|]. cbn [filter find_before]. destruct (named (u "p") e); [discriminate|]. intros H. rewrite (IH H).
  destruct (html e); [destruct (name_in p_scope e)|destruct (foreign_boundary e)]; reflexivity.
Qed.
Lemma repair_nothing quirks name l : in_strs name repair_start_tags = false -> in_strs name p_closing = false \/ p_count l = 0 -> repair quirks name l = l.
Proof.
  intros R H. unfold repair_start_tags in R. rewrite in_strs_app in R. apply orb_false_iff in R as [R1 R2]. unfold repair. rewrite R2.
  assert (L : str_eqb name (u "li") = false) by (destruct (str_eqb_spec name (u "li")) as [->|]; [vm_compute in R1; discriminate|reflexivity]).
  assert (D : in_strs name (map u ["dd"; "dt"]) = false).
  { destruct (in_strs name (map u ["dd"; "dt"])) eqn:E; [|reflexivity]. rewrite (in_strs_sub name (map u ["dd"; "dt"]) (map u ["dd"; "dt"; "li"; "optgroup"; "option"]) eq_refl E) in R1. discriminate R1. }
  rewrite L, D. destruct H as [H|H]; [rewrite H; reflexivity|]. rewrite (no_p l H), andb_false_r. reflexivity.
Qed.
Definition top_ok (l : stack) : Prop := match l with e :: _ => html e = true \/ foreign_boundary e = true | [] => True end.
Lemma insert_html name breaks encoded selfc l : top_ok l -> by_name name = Html -> in_strs name (map u ["mglyph"; "malignmark"]) = false ->
  insert name breaks encoded selfc l = safe_insert name encoded l.
Proof.
  intros H B M. unfold insert, safe_insert. assert (N : namespace_for name breaks l = (Html, l)).
  { destruct l as [|e t]; cbn [namespace_for]; [rewrite B; reflexivity|]. rewrite M, B. cbn [negb]. rewrite andb_true_r. destruct H as [H|H]; [rewrite H; reflexivity|].
    unfold foreign_boundary in H. apply andb_true_iff in H as [_ H]. destruct (html e), (html_point e); try reflexivity. cbn [orb] in H. rewrite H. reflexivity. }
  rewrite N. reflexivity.
Qed.
Definition steady (l : stack) : Prop := chained l /\ Forall (fun e => html e = false -> in_strs (en e) breakout_names = false) l /\ top_ok l.
Lemma named_html n e : in_strs n breakout_names = true -> (html e = false -> in_strs (en e) breakout_names = false) -> named n e = true -> html e = true.
Proof. intros B F N. unfold named in N. apply str_eqb_eq in N. destruct (html e); [reflexivity|]. rewrite N, B in F. discriminate (F eq_refl). Qed.
Lemma find_steady pred b l t : (forall e, (html e = false -> in_strs (en e) breakout_names = false) -> pred e = true -> html e = true) -> steady l -> find_p pred b l = Some t -> steady t.
Proof.
  intros P (C & F & _). induction l as [|e l IH]; [discriminate|]. cbn [find_p chained] in *. inversion F as [|x y F1 F2]; subst. destruct C as [C1 C2]. destruct (pred e) eqn:E.
  - intros Q. injection Q as <-. split; [exact C2|]. split; [exact F2|]. destruct l as [|a l]; [exact I|]. cbn [top_ok]. specialize (C1 (P e F1 E) ltac:(discriminate)). cbn [sound_top] in C1.
    apply orb_true_iff in C1 as [C1|C1]; [left; exact C1|right; rewrite boundary_point; exact C1].
  - destruct (b e); [discriminate|]. exact (IH C2 F2).
Qed.
Lemma or_same_steady (r : option stack) l : steady l -> (forall t, r = Some t -> steady t) -> steady (or_same r l).
Proof. intros S H. destruct r as [t|]; [exact (H t eq_refl)|exact S]. Qed.
Lemma close_steady n b l : in_strs n breakout_names = true -> steady l -> steady (or_same (close_until n b l) l).
Proof. intros B S. apply or_same_steady; [exact S|]. intros t. rewrite close_until_p. apply find_steady; [|exact S]. intros e F. apply named_html; assumption. Qed.
Lemma repair_steady quirks name l : steady l -> match l with e :: _ => html e = true | [] => True end -> top_ok (repair quirks name l).
Proof.
  intros S H. unfold repair. set (l1 := if _ && _ && _ then _ else l).
  assert (S1 : steady l1) by (unfold l1; destruct (_ && _ && _); [apply close_steady; [reflexivity|exact S]|exact S]).
  destruct (str_eqb name (u "li")).
  { apply (or_same_steady _ _ S1). intros t. rewrite close_li_p. apply find_steady; [|exact S1]. intros e F. apply named_html; [reflexivity|exact F]. }
  destruct (in_strs name (map u ["dd"; "dt"])).
  { apply (close_steady (u "dt") definition_scope (or_same (close_until (u "dd") definition_scope l1) l1) eq_refl). apply close_steady; [reflexivity|exact S1]. }
  destruct (in_strs name headings); [|exact (proj2 (proj2 S1))].
  destruct (pop_foreign l1) as [|e t] eqn:E; [exact I|].
  assert (S2 : steady (e :: t)).
  { rewrite <- E. clear -S1. induction l1 as [|a [|b l2] IH]; [exact S1|exact S1|]. cbn [pop_foreign]. destruct (negb (html a) && negb (html_point a) && negb (text_point a)) eqn:Q; [|exact S1].
    exfalso. destruct S1 as (_ & _ & [T|T]); [rewrite T in Q; discriminate Q|]. unfold foreign_boundary in T. destruct (html a), (html_point a), (text_point a); discriminate. }
  destruct (name_in headings e) eqn:N; [|exact (proj2 (proj2 S2))].
  assert (P : find_p (name_in headings) (fun _ => false) (e :: t) = Some t) by (cbn [find_p]; rewrite N; reflexivity).
  refine (proj2 (proj2 (find_steady _ _ _ _ _ S2 P))). intros x F X. unfold name_in in X. destruct (html x); [reflexivity|]. specialize (F eq_refl).
  rewrite (in_strs_sub (en x) headings breakout_names eq_refl X) in F. discriminate F.
Qed.
Lemma pop_foreign_html e t : html e = true -> pop_foreign (e :: t) = e :: t.
Proof. intros H. destruct t; cbn [pop_foreign]; [reflexivity|]. rewrite H. reflexivity. Qed.

(* the start tags of the default policies that CloseModel is about *)
Definition tag_fine (p : policy) (scripting : bool) (t : str) : bool :=
  negb (ordinary t) || (negb (str_eqb t (u "button")) && negb (in_strs t (map u ["rb"; "rtc"])) && negb (in_strs t (map u ["rp"; "rt"]))
    && negb (str_eqb t (u "svg")) && negb (str_eqb t (u "math")) && negb (in_strs t (map u ["mglyph"; "malignmark"]))
    && Bool.eqb (flag ActionModel.a_void p scripting t) (in_strs t void_names)
    && (negb (flag ActionModel.a_simple_start p scripting t) || negb (in_strs t repair_start_tags))).
Lemma default_fine p scripting t : default_like p -> In t (allowed_tags p) -> tag_fine p scripting t = true.
Proof.
  intros D. assert (G : forallb (tag_fine p scripting) (allowed_tags p) = true) by (destruct D as [-> | ->], scripting; vm_compute; reflexivity).
  rewrite forallb_forall in G. apply G.
Qed.

Lemma insert_top name breaks encoded selfc l e t : l = e :: t -> html e = true -> by_name name = Html -> insert name breaks encoded selfc l = safe_insert name encoded l.
Proof. intros -> H B. unfold insert, safe_insert. cbn [namespace_for]. rewrite H, B. reflexivity. Qed.
Lemma unwrapped_same name encoded selfc l : by_name name = Html -> unwrapped_insert name encoded selfc l = insert name (in_strs name breakout_names) encoded selfc l.
Proof. intros B. unfold unwrapped_insert. destruct l as [|e t] eqn:L; [reflexivity|]. destruct (html e) eqn:H; [|reflexivity]. symmetry. exact (insert_top name _ encoded selfc _ e t eq_refl H B). Qed.
Lemma find_implied x pred b l : (forall e, name_in implied_names e = true -> pred e = false /\ b e = false) -> find_p pred b (implied x l) = find_p pred b l.
Proof.
  intros H. induction l as [|e l IH]; [reflexivity|]. cbn [implied]. destruct (name_in implied_names e && _) eqn:E; [|reflexivity]. apply andb_true_iff in E as [E _].
  cbn [find_p]. destruct (H e E) as [-> ->]. exact IH.
Qed.
Lemma button_found l : Forall (fun e => html e = true -> named (u "template") e = false) l -> open_anywhere (u "button") l = true -> exists t, close_until (u "button") [u "template"] l = Some t.
Proof.
  induction l as [|e l IH]; [discriminate|]. cbn [open_anywhere existsb close_until]. intros F O. inversion F as [|x y F1 F2]; subst. destruct (named (u "button") e); [eauto|].
  assert (G : html e && name_in [u "template"] e = false) by (destruct (html e); [|reflexivity]; cbn [andb]; unfold name_in, in_strs; cbn [existsb]; rewrite orb_false_r; exact (F1 eq_refl)).
  rewrite G. exact (IH F2 O).
Qed.
Lemma button_same l : Forall (fun e => html e = true -> named (u "template") e = false) l -> open_anywhere (u "button") l = true ->
  or_same (close_until (u "button") [u "template"] (implied None l)) (implied None l) = or_same (close_until (u "button") [u "template"] l) l.
Proof.
  intros F O. destruct (button_found l F O) as [t E]. rewrite E. rewrite close_until_p in *. rewrite find_implied, E; [reflexivity|].
  intros e I. unfold name_in in I. apply in_strs_In in I. unfold named, name_in, in_strs. cbn [existsb]. rewrite orb_false_r.
  repeat (destruct I as [I|I]; [rewrite <- I; split; [reflexivity|apply andb_false_r]|]). destruct I.
Qed.
Definition ruby_tags : list str := map u ["rb"; "rp"; "rt"; "rtc"].
Definition void_unknown (p : policy) (name : str) : bool := negb (in_strs name (allowed_tags p)) && in_strs name ActionModel.void_tags.
Theorem start_same p scripting quirks name encoded selfc l : default_like p -> ordinary name = true ->
  in_strs name ruby_tags = false ->
  chained l -> Forall (fun e => html e = false -> in_strs (en e) breakout_names = false) l -> Forall (fun e => html e = true -> named (u "template") e = false) l ->
  let r := start_tag quirks name encoded selfc l in
  safe_start p scripting quirks name encoded selfc l = if void_unknown p name && match l with e :: _ => html e | [] => false end then (fst r, []) else r.
Proof.
  intros D O RU CH FO TE. cbv zeta. unfold safe_start. destruct l as [|c t] eqn:L; [rewrite andb_false_r; reflexivity|]. rewrite <- L in *.
  destruct (html c) eqn:HC; [|rewrite andb_false_r; reflexivity]. cbn [negb orb]. rewrite andb_true_r.
  destruct (in_strs name ActionModel.drop_subtree_tags) eqn:FR.
  { unfold void_unknown. replace (in_strs name ActionModel.void_tags) with false; [rewrite andb_false_r; reflexivity|].
    apply in_strs_In in FR. destruct FR as [<-|[<-|[]]]; reflexivity. }
  assert (S : steady l) by (split; [exact CH|split; [exact FO|rewrite L; left; exact HC]]).
  assert (B : by_name name = Html).
  { unfold by_name. unfold ActionModel.drop_subtree_tags, in_strs in FR. cbn [existsb map] in FR. apply orb_false_iff in FR as [-> FR]. apply orb_false_iff in FR as [-> _]. reflexivity. }
  assert (HT : html_text name l = true) by (rewrite L; cbn [html_text]; rewrite HC; reflexivity).
  assert (R1 : in_strs name (map u ["rb"; "rtc"]) = false) by (destruct (in_strs name (map u ["rb"; "rtc"])) eqn:E; [rewrite (in_strs_sub name (map u ["rb"; "rtc"]) ruby_tags eq_refl E) in RU; discriminate|reflexivity]).
  assert (R2 : in_strs name (map u ["rp"; "rt"]) = false) by (destruct (in_strs name (map u ["rp"; "rt"])) eqn:E; [rewrite (in_strs_sub name (map u ["rp"; "rt"]) ruby_tags eq_refl E) in RU; discriminate|reflexivity]).
  destruct (str_eqb name (u "button")) eqn:BU.
  { apply str_eqb_eq in BU. subst name. assert (A : in_strs (u "button") (allowed_tags p) = false) by (destruct D as [-> | ->]; reflexivity).
    assert (NS : flag ActionModel.a_simple_start p scripting (u "button") = false).
    { unfold flag, ActionModel.plan_action. destruct (in_strs (u "button") (ActionModel.known_tags p scripting)); [|reflexivity]. cbn [ActionModel.a_simple_start ActionModel.compile_action]. rewrite A. reflexivity. }
    rewrite NS. cbn [andb]. unfold void_unknown. rewrite A. cbn [negb andb]. change (in_strs (u "button") ActionModel.void_tags) with false. cbv iota.
    rewrite unwrapped_same by reflexivity. unfold start_tag. rewrite HT. change (str_eqb (u "button") (u "button")) with true.
    change (in_strs (u "button") (map u ["rb"; "rtc"])) with false. change (in_strs (u "button") (map u ["rp"; "rt"])) with false. rewrite !andb_false_r. cbn [negb andb].
    set (l1 := if open_anywhere (u "button") l then _ else l). set (l2 := if open_anywhere (u "button") l then _ else l).
    assert (E : l1 = l2) by (unfold l1, l2; destruct (open_anywhere (u "button") l) eqn:OA; [symmetry; exact (button_same l TE OA)|reflexivity]).
    rewrite <- E. rewrite (repair_nothing quirks (u "button") l1 eq_refl (or_introl eq_refl)). reflexivity. }
  cbn [andb].
  assert (R : start_tag quirks name encoded selfc l = insert name (in_strs name breakout_names) encoded selfc (repair quirks name l)).
  { unfold start_tag. rewrite HT, BU, R1, R2. cbn [negb andb]. rewrite !andb_false_r. reflexivity. }
  rewrite closing_flag.
  set (l1 := if in_strs name repair_start_tags || _ then repair quirks name l else l).
  assert (RL : l1 = repair quirks name l).
  { unfold l1. destruct (in_strs name repair_start_tags || in_strs name p_closing && negb (p_count l =? 0)) eqn:E2; [reflexivity|].
    apply orb_false_iff in E2 as [E2 E3]. rewrite (repair_nothing quirks name l E2); [reflexivity|].
    apply andb_false_iff in E3 as [E3|E3]; [left; exact E3|right; apply Nat.eqb_eq; apply negb_false_iff; exact E3]. }
  destruct (in_strs name (allowed_tags p)) eqn:A.
  - pose proof (default_fine p scripting name D (proj1 (in_strs_In _ _) A)) as F. unfold tag_fine in F. rewrite O in F. cbn [negb orb] in F.
    repeat (apply andb_true_iff in F as [F ?]). unfold void_unknown. rewrite A. cbn [negb andb].
    assert (M : in_strs name (map u ["mglyph"; "malignmark"]) = false) by (apply negb_true_iff; assumption).
    rewrite R. rewrite (insert_html name _ encoded selfc (repair quirks name l)); [|apply repair_steady; [exact S|rewrite L; exact HC]|exact B|exact M].
    destruct (flag ActionModel.a_simple_start p scripting name && _ && _) eqn:E; [|rewrite RL; reflexivity].
    apply andb_true_iff in E as [E _]. apply andb_true_iff in E as [E1 E2].
    match goal with X : (negb _ || negb _)%bool = true |- _ => rewrite E1 in X; cbn [negb orb] in X; apply negb_true_iff in X; rename X into RS end.
    rewrite (repair_nothing quirks name l RS) by (apply orb_true_iff in E2 as [E2|E2]; [left; apply negb_true_iff; exact E2|right; apply Nat.eqb_eq; exact E2]).
    match goal with X : Bool.eqb _ _ = true |- _ => apply Bool.eqb_prop in X; rewrite X end. reflexivity.
  - assert (NS : flag ActionModel.a_simple_start p scripting name = false).
    { unfold flag, ActionModel.plan_action. destruct (in_strs name (ActionModel.known_tags p scripting)); [|reflexivity]. cbn [ActionModel.a_simple_start ActionModel.compile_action]. rewrite A. reflexivity. }
    rewrite NS. cbn [andb]. unfold void_unknown. rewrite A. cbn [negb andb].
    assert (NH : flag ActionModel.a_head_content p scripting name = false).
    { unfold flag, ActionModel.plan_action. destruct (in_strs name (ActionModel.known_tags p scripting)); [|reflexivity]. cbn [ActionModel.a_head_content ActionModel.compile_action].
      destruct (in_strs name ActionModel.head_content_tags) eqn:E; [|reflexivity]. unfold ordinary in O. rewrite (in_strs_sub name ActionModel.head_content_tags other_rules eq_refl E) in O. discriminate O. }
    assert (NK : in_strs name (map u ["col"; "colgroup"; "form"; "menuitem"]) = false).
    { destruct (in_strs name (map u ["col"; "colgroup"; "form"; "menuitem"])) eqn:E; [|reflexivity]. unfold ordinary in O. rewrite (in_strs_sub name (map u ["col"; "colgroup"; "form"; "menuitem"]) other_rules eq_refl E) in O. discriminate O. }
    unfold built. rewrite NH, NK. cbn [negb andb]. rewrite RL, R. destruct (in_strs name ActionModel.void_tags) eqn:V; cbn [negb andb].
    + assert (VN : in_strs name void_names = true) by (exact (in_strs_sub name ActionModel.void_tags void_names eq_refl V)).
      assert (M : in_strs name (map u ["mglyph"; "malignmark"]) = false).
      { destruct (in_strs name (map u ["mglyph"; "malignmark"])) eqn:E; [|reflexivity]. apply in_strs_In in E. exfalso. destruct E as [E|[E|[]]]; subst name; vm_compute in V; discriminate V. }
      rewrite (insert_html name _ encoded selfc (repair quirks name l)); [|apply repair_steady; [exact S|rewrite L; exact HC]|exact B|exact M].
      unfold safe_insert. rewrite VN. reflexivity.
    + apply unwrapped_same. exact B.
Qed.

Lemma all_html l : existsb (fun e => negb (html e)) l = false -> forall e, In e l -> html e = true.
Proof. intros H e I. destruct (html e) eqn:E; [reflexivity|]. assert (existsb (fun e => negb (html e)) l = true) by (apply existsb_exists; exists e; rewrite E; auto). congruence. Qed.
Lemma simple_end_not p scripting name : flag ActionModel.a_simple_end p scripting name = true -> str_eqb name (u "br") = false /\ in_strs name headings = false.
Proof.
  unfold flag, ActionModel.plan_action. destruct (in_strs name (ActionModel.known_tags p scripting)); [|discriminate]. cbn [ActionModel.a_simple_end ActionModel.compile_action].
  intros H. apply andb_true_iff in H as [_ H]. apply negb_true_iff in H. split.
  - destruct (str_eqb_spec name (u "br")) as [->|]; [vm_compute in H; discriminate H|reflexivity].
  - destruct (in_strs name headings) eqn:E; [|reflexivity]. rewrite (in_strs_sub name headings ActionModel.simple_end_exclusions eq_refl E) in H. discriminate H.
Qed.
Theorem end_same p scripting name l : safe_end p scripting name l = end_tag name l.
Proof.
  unfold safe_end. destruct l as [|c t] eqn:L; [reflexivity|]. rewrite <- L in *.
  destruct (existsb (fun e => negb (html e)) l) eqn:X; [reflexivity|]. pose proof (all_html l X) as AH.
  assert (HC : html c = true) by (apply AH; rewrite L; left; reflexivity).
  unfold end_tag. assert (ST : stays name l = Leave) by (rewrite L; cbn [stays]; rewrite HC; reflexivity). rewrite ST.
  assert (TO : top_ok l) by (rewrite L; left; exact HC).
  assert (ME : matches_end name c = named name c) by (unfold matches_end; rewrite HC; apply orb_false_r).
  destruct (flag ActionModel.a_simple_end p scripting name && named name c) eqn:E.
  - apply andb_true_iff in E as [E1 E2]. destruct (simple_end_not p scripting name E1) as [B H]. rewrite B, H, L, ME, E2. reflexivity.
  - destruct (str_eqb_spec name (u "br")) as [->|NB]; [symmetry; apply insert_html; [exact TO|reflexivity|reflexivity]|].
    destruct (in_strs name headings); [reflexivity|]. rewrite closing_flag. rewrite L in *. rewrite ME. destruct (named name c); [reflexivity|].
    destruct (if str_eqb name (u "p") then _ else _); [reflexivity|].
    destruct (str_eqb_spec name (u "p")) as [->|]; [|reflexivity]. rewrite (insert_html (u "p") true false false (c :: t) TO eq_refl eq_refl). reflexivity.
Qed.

(* ---------- histories ---------- *)
Lemma inv_facts l : inv l -> chained l /\ Forall (fun e => html e = false -> in_strs (en e) breakout_names = false) l /\ Forall (fun e => html e = true -> named (u "template") e = false) l.
Proof.
  intros J. split; [exact (i_chain l J)|]. split; (eapply Forall_impl; [|exact (i_el l J)]).
  - intros e O F. exact (foreign_not e O F).
  - intros e O F. unfold okel in O. rewrite F in O. destruct O as [_ O]. unfold named. destruct (str_eqb_spec (en e) (u "template")) as [E|]; [|reflexivity]. rewrite E in O.
    exfalso. destruct O as [O|[O _]]; vm_compute in O; discriminate O.
Qed.
Definition ordinary_event (e : event) : Prop := match e with Start n _ _ => in_strs n ruby_tags = false | _ => True end.
Definition kept (p : policy) (m : el * stack) : bool := negb (html (fst m) && void_unknown p (en (fst m))).
Lemma insert_name name breaks encoded selfc l : by_name name = Html -> match l with e :: _ => html e = true \/ foreign_boundary e = true | [] => True end -> in_strs name (map u ["mglyph"; "malignmark"]) = false ->
  snd (insert name breaks encoded selfc l) = [(El name Html encoded, l)].
Proof. intros B T M. rewrite (insert_html name breaks encoded selfc l T B M). reflexivity. Qed.
Lemma step_same p scripting quirks e l : default_like p -> inv l -> ok_event e l -> ordinary_event e ->
  fst (step (safe_start p scripting quirks) (safe_end p scripting) e l) = fst (step std_start std_end e l)
  /\ filter (kept p) (snd (step (safe_start p scripting quirks) (safe_end p scripting) e l)) = filter (kept p) (snd (step std_start std_end e l)).
Proof.
  intros D J K A. rewrite <- (step_follows quirks e l J K). destruct e as [n c s|n|l']; cbn [step ordinary_event ok_event] in *; [|rewrite end_same; split; reflexivity|split; reflexivity].
  destruct K as [T _]. apply tag_parts in T. destruct T as [_ O]. rename A into A1. destruct (inv_facts l J) as (F1 & F2 & F3).
  pose proof (start_same p scripting quirks n c s l D O A1 F1 F2 F3) as E. cbv zeta in E. rewrite E. clear E.
  destruct (void_unknown p n && _) eqn:V; [|split; reflexivity]. cbn [fst snd]. split; [reflexivity|]. apply andb_true_iff in V as [V1 V2].
  destruct l as [|a l0] eqn:L; [discriminate V2|]. rewrite <- L in *. cbn [filter].
  assert (V : in_strs n ActionModel.void_tags = true) by (unfold void_unknown in V1; apply andb_true_iff in V1; apply V1).
  assert (NE : forall x, in_strs x ActionModel.void_tags = false -> str_eqb n x = false) by (intros x X; destruct (str_eqb_spec n x) as [->|]; [congruence|reflexivity]).
  assert (B : by_name n = Html) by (unfold by_name; rewrite (NE (u "svg") eq_refl), (NE (u "math") eq_refl); reflexivity).
  assert (NI : forall l, forallb (fun x => negb (in_strs x ActionModel.void_tags)) l = true -> in_strs n l = false).
  { intros k Hk. destruct (in_strs n k) eqn:E; [|reflexivity]. apply in_strs_In in E. rewrite forallb_forall in Hk. specialize (Hk n E). rewrite V in Hk. discriminate Hk. }
  assert (S : steady l) by (split; [exact F1|split; [exact F2|rewrite L; left; exact V2]]).
  assert (R : start_tag quirks n c s l = insert n (in_strs n breakout_names) c s (repair quirks n l)).
  { assert (HT : html_text n l = true) by (rewrite L; cbn [html_text]; rewrite V2; reflexivity). unfold start_tag. rewrite HT, (NE (u "button") eq_refl), (NI (map u ["rb"; "rtc"]) eq_refl), (NI (map u ["rp"; "rt"]) eq_refl). cbn [negb andb orb]. rewrite ?andb_false_r. reflexivity. }
  rewrite R, insert_name; [|exact B|apply repair_steady; [exact S|rewrite L; exact V2]|exact (NI (map u ["mglyph"; "malignmark"]) eq_refl)].
  cbn [filter]. unfold kept. cbn [fst html es en]. rewrite V1. reflexivity.
Qed.
Lemma filter_two {A} (f : A -> bool) l1 l2 m1 m2 : filter f l1 = filter f m1 -> filter f l2 = filter f m2 -> filter f (l1 ++ l2) = filter f (m1 ++ m2).
Proof. intros H1 H2. rewrite !filter_app, H1, H2. reflexivity. Qed.
Lemma history_same p scripting quirks : default_like p -> forall es l, inv l -> ok_events es l -> Forall ordinary_event es ->
  fst (run (safe_start p scripting quirks) (safe_end p scripting) es l) = fst (by_standard es l)
  /\ filter (kept p) (snd (run (safe_start p scripting quirks) (safe_end p scripting) es l)) = filter (kept p) (snd (by_standard es l)).
Proof.
  intros D. unfold by_standard. induction es as [|e es IH]; intros l J K A; [split; reflexivity|]. inversion A as [|x y A1 A2]; subst. destruct K as [K Ks]. cbn [run].
  destruct (step_same p scripting quirks e l D J K A1) as [E1 E2]. pose proof (step_inv e l J K) as J'.
  destruct (step (safe_start p scripting quirks) (safe_end p scripting) e l) as [m x]. destruct (step std_start std_end e l) as [m' x']. cbn [fst snd] in *. subst m.
  destruct (IH m' J' Ks A2) as [G1 G2]. destruct (run (safe_start p scripting quirks) (safe_end p scripting) es m') as [a b]. destruct (run std_start std_end es m') as [a' b'].
  cbn [fst snd] in *. split; [exact G1|]. apply filter_two; assumption.
Qed.
