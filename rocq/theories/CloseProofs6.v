(* PROOFS for C66, part 6: end tags *)
From Coq Require Import List Arith Bool String Lia.
From Verif Require Import Str StrFacts SerTreeProofs.
From Verif Require Import AaaModel GuardModel CloseModel CloseSpec CloseProofs1 CloseProofs2 CloseProofs3 CloseProofs4 CloseProofs5.
Import ListNotations.
Open Scope string_scope. Open Scope list_scope. Open Scope nat_scope.

(* ---- positions ---- *)
Lemma last_pos_or : forall p q l, last_pos (fun e => p e || q e) l = Nat.max (last_pos p l) (last_pos q l).
Proof.
  intros p q. induction l as [|e t IH]; [reflexivity|]. cbn [last_pos]. pose proof (last_pos_le p t). pose proof (last_pos_le q t). rewrite IH.
  destruct (p e), (q e); cbn [orb List.length]; lia.
Qed.
Lemma last_pos_ext : forall p q l, Forall (fun e => p e = q e) l -> last_pos p l = last_pos q l.
Proof. intros p q l F. induction F as [|e t H F IH]; [reflexivity|]. cbn [last_pos]. rewrite H, IH. reflexivity. Qed.
Lemma last_pos_skip : forall p a l, Forall (fun e => p e = false) a -> last_pos p (a ++ l) = last_pos p l.
Proof. intros p a l F. induction F as [|e t H F IH]; [reflexivity|]. cbn [app last_pos]. rewrite H. exact IH. Qed.
Lemma last_pos_false : forall l, last_pos (fun _ => false) l = 0.
Proof. induction l as [|e t IH]; [reflexivity|exact IH]. Qed.
Definition hit (name : str) (e : el) : bool := if html e then named name e else str_eqb (lower (en e)) name.
Lemma hit_target : forall name l, lower name = name -> Forall okel l ->
  Nat.max (last_pos (named name) l) (if str_eqb (svg_name name) name then O else last_pos (named (svg_name name)) l) = last_pos (hit name) l.
Proof.
  intros name l L O.
  assert (forall q, (if str_eqb (svg_name name) name then 0 else last_pos q l) = last_pos (fun e => negb (str_eqb (svg_name name) name) && q e) l) as E.
  { intros q. destruct (str_eqb (svg_name name) name); cbn [negb andb]; [symmetry; apply last_pos_false|reflexivity]. }
  rewrite E, <- last_pos_or. apply last_pos_ext. eapply Forall_impl; [|exact O]. intros e Oe. unfold hit. destruct (html e) eqn:H.
  - unfold okel in Oe. rewrite H in Oe. destruct Oe as [Le _]. destruct (str_eqb (svg_name name) name) eqn:A; cbn [negb andb]; [apply orb_false_r|].
    unfold named. destruct (str_eqb (en e) (svg_name name)) eqn:B; [|apply orb_false_r]. apply str_eqb_eq in B. rewrite B, (lower_svg name L) in Le. rewrite <- Le, str_eqb_refl in A. discriminate.
  - destruct (foreign_lower e Oe H) as [n [Ln [_ [Le C]]]]. rewrite Le. unfold named. destruct (str_eqb n name) eqn:B.
    + apply str_eqb_eq in B. rewrite B in C. destruct C as [C|[C _]]; rewrite C; [rewrite str_eqb_refl; reflexivity|]. rewrite str_eqb_refl, andb_true_r. destruct (str_eqb (svg_name name) name); reflexivity.
    + apply orb_false_iff. split.
      * destruct (str_eqb (en e) name) eqn:D; [|reflexivity]. apply str_eqb_eq in D. rewrite D, L in Le. rewrite <- Le, str_eqb_refl in B. discriminate.
      * destruct (str_eqb (en e) (svg_name name)) eqn:D; [|apply andb_false_r]. apply str_eqb_eq in D. rewrite D, (lower_svg name L) in Le. rewrite <- Le, str_eqb_refl in B. discriminate.
Qed.
(* the foreign elements on top, and the first HTML element *)
Lemma run_parts : forall l, bottom l -> exists r h w, l = r ++ h :: w /\ Forall (fun e => html e = false) r /\ html h = true.
Proof.
  intros l [a ->]. induction a as [|e a IH]; [exists [], the_body, [the_html]; repeat split; constructor|]. cbn [app]. destruct (html e) eqn:H.
  - exists [], e, (a ++ [the_body; the_html]). repeat split; [constructor|exact H].
  - destruct IH as [r [h [w [E [F Hh]]]]]. exists (e :: r), h, w. rewrite E. repeat split; [constructor; assumption|exact Hh].
Qed.
Lemma foreign_loop_run : forall name r h w, Forall (fun e => html e = false) r -> html h = true ->
  (exists r1 x r2, r = r1 ++ x :: r2 /\ Forall (fun e => hit name e = false) r1 /\ hit name x = true /\ foreign_loop name (r ++ h :: w) = Popped (r2 ++ h :: w))
  \/ (Forall (fun e => hit name e = false) r /\ foreign_loop name (r ++ h :: w) = Html_rules).
Proof.
  intros name r h w F H. induction F as [|e r He F IH]; cbn [app foreign_loop]; [right; rewrite H; split; [constructor|reflexivity]|].
  rewrite He. destruct (str_eqb (lower (en e)) name) eqn:E.
  - left. exists [], e, r. repeat split; [constructor|]. unfold hit. rewrite He. exact E.
  - assert (hit name e = false) as X by (unfold hit; rewrite He; exact E). destruct IH as [[r1 [x [r2 [-> [A [B C]]]]]]|[A B]].
    + left. exists (e :: r1), x, r2. repeat split; [constructor; assumption|exact B|exact C].
    + right. split; [constructor; assumption|exact B].
Qed.
Lemma stays_spec : forall name e t, inv (e :: t) -> html e = false -> lower name = name -> in_strs name (map u ["br"; "p"]) = false ->
  match foreign_loop name (e :: t) with
  | Popped m => stays name (e :: t) = Stay m
  | Html_rules => stays name (e :: t) = Leave \/ (stays name (e :: t) = Stay (e :: t) /\ exists r h w, e :: t = r ++ h :: w /\ Forall (fun x => html x = false) r /\ existsb point r = true)
  end.
Proof.
  intros name e t I F L B. pose proof (i_el _ I) as O. destruct (run_parts _ (i_bottom _ I)) as [r [h [w [E [R H]]]]].
  unfold stays. rewrite F, B. cbv zeta. rewrite (hit_target name (e :: t) L O). rewrite E in *.
  assert (last_pos html (r ++ h :: w) = S (List.length w)) as HI by (rewrite last_pos_skip by exact R; cbn [last_pos]; rewrite H; reflexivity).
  rewrite HI. destruct (foreign_loop_run name r h w R H) as [[r1 [x [r2 [-> [A [X ->]]]]]]|[A ->]].
  - assert (last_pos (hit name) ((r1 ++ x :: r2) ++ h :: w) = S (List.length r2 + S (List.length w))) as TG.
    { rewrite <- app_assoc. rewrite last_pos_skip by exact A. cbn [app last_pos]. rewrite X. cbn [List.length]. rewrite app_length. cbn [List.length]. reflexivity. }
    rewrite TG. replace (S (List.length r2 + S (List.length w)) =? 0) with false by reflexivity. replace (S (List.length r2 + S (List.length w)) <? S (List.length w)) with false by (symmetry; apply Nat.ltb_ge; lia). cbn [orb].
    replace (List.length ((r1 ++ x :: r2) ++ h :: w) - S (List.length r2 + S (List.length w))) with (List.length r1) by (rewrite !app_length; cbn [List.length]; lia).
    rewrite <- app_assoc. rewrite skipn_app, skipn_all, Nat.sub_diag. cbn [app skipn]. apply Forall_app in R. destruct R as [_ R]. inversion R; subst. match goal with J : html x = false |- _ => rewrite J end. reflexivity.
  - rewrite (last_pos_skip _ _ _ A). cbn [last_pos]. destruct (hit name h) eqn:Q.
    + cbn [List.length]. replace (S (List.length w) =? 0) with false by reflexivity. rewrite Nat.ltb_irrefl. cbn [orb].
      replace (List.length (r ++ h :: w) - S (List.length w)) with (List.length r) by (rewrite app_length; cbn [List.length]; lia).
      rewrite skipn_app, skipn_all, Nat.sub_diag. cbn [app skipn]. rewrite H. cbn [andb].
      destruct (S (List.length w) <? last_pos foreign_boundary (r ++ h :: w)) eqn:LT; [|left; reflexivity]. right. split; [reflexivity|]. exists r, h, w. split; [reflexivity|]. split; [exact R|].
      destruct (existsb point r) eqn:P; [reflexivity|]. exfalso. apply Nat.ltb_lt in LT. rewrite last_pos_skip in LT.
      * pose proof (last_pos_le foreign_boundary (h :: w)). cbn [List.length] in *. lia.
      * apply Forall_forall. intros x Ix. rewrite boundary_point. destruct (point x) eqn:Px; [|reflexivity]. assert (existsb point r = true) by (apply existsb_exists; exists x; auto). congruence.
    + left. pose proof (last_pos_le (hit name) w). replace (last_pos (hit name) w <? S (List.length w)) with true by (symmetry; apply Nat.ltb_lt; lia). rewrite orb_true_r. reflexivity.
Qed.

(* ---- the standard's rules in the form of a search ---- *)
Definition blocks_end : list string := ["address"; "article"; "aside"; "blockquote"; "button"; "center"; "details"; "dialog"; "dir"; "div"; "dl"; "fieldset"; "figcaption"; "figure"; "footer"; "header"; "hgroup"; "listing"; "main"; "menu"; "nav"; "ol"; "pre"; "search"; "section"; "summary"; "ul"; "applet"; "marquee"; "object"].
Lemma element_name : forall n e, element n e = true -> en e = n.
Proof. intros n e H. unfold element in H. apply andb_true_iff in H. apply str_eqb_eq. exact (proj2 H). Qed.
Lemma scoped_cut : forall name more l, (if in_scope (element name) more l then (pop_until (element name) (generate (element name) l), @nil (el * stack)) else (l, [])) = (cut (element name) (ends_scope more) l, []).
Proof. intros. rewrite cut_std. unfold in_scope. rewrite generate_until by (intros e H; rewrite H; cbn [negb]; apply andb_false_r). destruct (reaches _ _ l); reflexivity. Qed.
Lemma std_end_cut : forall name l, std_body_end name l =
  if one_of blocks_end name then (cut (element name) (ends_scope []) l, [])
  else if one_of ["p"] name then match find_p (is "p") (ends_scope ["button"]) l with Some t => (t, []) | None => (l, [(El name Html false, l)]) end
  else if one_of ["li"] name then (cut (element name) (ends_scope ["ol"; "ul"]) l, [])
  else if one_of ["dd"; "dt"] name then (cut (element name) (ends_scope []) l, [])
  else if one_of ["h1"; "h2"; "h3"; "h4"; "h5"; "h6"] name then (cut heading (ends_scope []) l, [])
  else if one_of ["br"] name then (l, [(El name Html false, l)])
  else (cut (element name) special_element l, []).
Proof.
  intros name l. unfold std_body_end. cbv zeta. change ["address"; "article"; "aside"; "blockquote"; "button"; "center"; "details"; "dialog"; "dir"; "div"; "dl"; "fieldset"; "figcaption"; "figure"; "footer"; "header"; "hgroup"; "listing"; "main"; "menu"; "nav"; "ol"; "pre"; "search"; "section"; "summary"; "ul"; "applet"; "marquee"; "object"] with blocks_end.
  destruct (one_of blocks_end name) eqn:C1.
  { rewrite cut_std. unfold in_scope. rewrite never_until; [destruct (reaches _ _ l); reflexivity|]. intros e H. rewrite (element_name _ _ H). unfold one_of in C1. refine (in_apart _ _ C1 _ _). vm_compute. reflexivity. }
  destruct (one_of ["p"] name). { rewrite find_std. unfold in_scope, close_p, in_scope. destruct (reaches _ _ l); [|reflexivity]. rewrite generate_until by (intros e H; rewrite H; cbn [negb]; apply andb_false_r). reflexivity. }
  destruct (one_of ["li"] name); [apply scoped_cut|]. destruct (one_of ["dd"; "dt"] name); [apply scoped_cut|].
  destruct (one_of ["h1"; "h2"; "h3"; "h4"; "h5"; "h6"] name).
  { rewrite cut_std. unfold in_scope. rewrite never_until; [destruct (reaches _ _ l); reflexivity|]. intros e H. unfold heading in H. apply andb_true_iff in H. destruct H as [_ H]. unfold one_of in H. refine (in_apart _ _ H _ _). vm_compute. reflexivity. }
  destruct (one_of ["br"] name); [reflexivity|].
  rewrite cut_std. unfold any_other. rewrite generate_until by (intros e H; rewrite H; cbn [negb]; apply andb_false_r). destruct (reaches _ _ l); reflexivity.
Qed.
(* nothing is found past a point when only foreign elements come before *)
Lemma blocked : forall p stop r m, Forall (fun x => html x = false) r -> existsb point r = true -> (forall e, p e = true -> html e = true) -> (forall e, point e = true -> stop e = true) -> find_p p stop (r ++ m) = None.
Proof.
  intros p stop r m F. induction F as [|e r He F IH]; intros E P S; [discriminate|]. cbn [app find_p existsb] in *. destruct (p e) eqn:Pe; [rewrite (P e Pe) in He; discriminate|]. destruct (stop e) eqn:Se; [reflexivity|].
  apply IH; [|exact P|exact S]. apply orb_true_iff in E. destruct E as [E|E]; [rewrite (S e E) in Se; discriminate|exact E].
Qed.
Lemma scope_point : forall more e, point e = true -> ends_scope more e = true.
Proof. intros more e H. rewrite (ends_foreign _ _ (point_foreign e H)), H. reflexivity. Qed.
Lemma special_point : forall e, point e = true -> special_element e = true.
Proof. intros e H. rewrite (special_foreign _ (point_foreign e H)), H. reflexivity. Qed.
Lemma blocked_end : forall name r m, in_strs name (map u ["br"; "p"]) = false -> Forall (fun x => html x = false) r -> existsb point r = true -> std_body_end name (r ++ m) = (r ++ m, []).
Proof.
  intros name r m B F P. rewrite std_end_cut. unfold one_of at 2 6.
  rewrite (not_in_sub (map u ["br"; "p"]) (map u ["p"]) name eq_refl B), (not_in_sub (map u ["br"; "p"]) (map u ["br"]) name eq_refl B).
  unfold cut. rewrite !blocked by (try assumption; first [apply element_html | apply heading_html | apply scope_point | apply special_point]).
  cbn [or_same]. repeat match goal with |- context [one_of ?a name] => destruct (one_of a name) end; reflexivity.
Qed.

(* ---- the code's searches ---- *)
Definition clear_top (name : str) (l : stack) : Prop := Forall (fun e => html e = false -> point e = false -> hit name e = false /\ unencoded e = false) (upper l).
Lemma hit_named : forall name e, lower name = name -> html e = false -> named name e = true -> hit name e = true.
Proof. intros name e L H N. unfold hit. rewrite H. unfold named in N. apply str_eqb_eq in N. rewrite N, L. apply str_eqb_refl. Qed.
Lemma scope_agree : forall name bounds stop l, lower name = name -> clear_top name l -> Forall okel l -> one_of (svg_points ++ mathml_points) name = false ->
  (forall e, okel e -> html e = true -> name_in bounds e = stop e) -> (forall e, html e = false -> stop e = point e || unencoded e) ->
  find_before name bounds l = find_p (element name) stop l.
Proof.
  intros name bounds stop l L C O N Hs Fs. rewrite find_before_p. apply agree. apply upper_sub in O. unfold clear_top in C. rewrite Forall_forall in *. intros e Ie. specialize (C e Ie). specialize (O e Ie). unfold agrees. destruct (html e) eqn:H.
  - rewrite (element_named _ _ H), (Hs e O H). repeat split. intros P. rewrite (point_foreign e P) in H. discriminate.
  - rewrite (Fs e H), boundary_point. unfold element. rewrite H. cbn [andb]. destruct (point e) eqn:P.
    + rewrite (point_not_named name e N P). repeat split.
    + destruct (C eq_refl eq_refl) as [C1 C2]. rewrite C2. split; [|split; [reflexivity|discriminate]]. destruct (named name e) eqn:X; [|reflexivity]. rewrite (hit_named name e L H X) in C1. discriminate.
Qed.
Lemma scope_end : forall name bounds more l, lower name = name -> clear_top name l -> Forall okel l -> one_of (svg_points ++ mathml_points) name = false ->
  sub bounds (scope_names more) && sub (scope_names more) bounds = true -> find_before name bounds l = find_p (element name) (ends_scope more) l.
Proof. intros name bounds more l L C O N B. apply scope_agree; try assumption; [intros e _ H; apply scope_html; assumption|intros e H; apply ends_foreign; exact H]. Qed.
Definition general_stop (e : el) : bool := if html e then name_in general_scope e else special_element e.
Lemma general_special : forall e, html e = true -> name_in general_scope e = special e.
Proof. intros e H. rewrite (code_special_html e H). unfold name_in. apply same_in. vm_compute. reflexivity. Qed.
Lemma dialog_free : forall name l, Forall okel l -> reaches (is "dialog") (fun e => element name e || special_element e) l = false -> find_p (element name) general_stop l = find_p (element name) special_element l.
Proof.
  intros name l O. induction O as [|e t Oe O IH]; intros D; [reflexivity|]. cbn [find_p reaches] in *. destruct (element name e); [reflexivity|]. apply orb_false_iff in D. destruct D as [De D].
  assert (general_stop e = special_element e) as G.
  { unfold general_stop. destruct (html e) eqn:H; [|reflexivity]. rewrite (general_special e H). apply special_same; assumption. }
  rewrite G. destruct (special_element e); [reflexivity|]. cbn [orb negb andb] in D. exact (IH D).
Qed.
Lemma slot_find : forall name l t, lower name = name -> Forall okel l -> clear_top name l -> reaches (is "dialog") (fun e => element name e || special_element e) l = false ->
  find_p (element name) special_element l = Some t -> find_p (matches_end name) special l = Some t.
Proof.
  intros name l t L O. induction O as [|e r Oe O IH]; intros C D F; [discriminate|]. cbn [find_p reaches] in *. unfold matches_end at 1. destruct (html e) eqn:H.
  - rewrite (element_named name e H) in *. cbn [negb andb]. rewrite orb_false_r. destruct (named name e) eqn:N; [exact F|]. cbn [orb negb andb] in D. apply orb_false_iff in D. destruct D as [De D].
    destruct (special_element e) eqn:S; [discriminate|]. rewrite (special_same e Oe H De), S. cbn [negb andb] in D. unfold clear_top in C. cbn [upper] in C. assert (point e = false) as P by (destruct (point e) eqn:P; [rewrite (point_foreign e P) in H; discriminate|reflexivity]). rewrite P in C. inversion C; subst. apply IH; assumption.
  - assert (element name e = false) as E by (unfold element; rewrite H; reflexivity). rewrite E in *. destruct (special_element e) eqn:S; [discriminate|]. cbn [orb negb andb] in D. apply orb_false_iff in D. destruct D as [De D].
    rewrite (special_foreign e H) in S. apply orb_false_iff in S. destruct S as [P _]. unfold clear_top in C. cbn [upper] in C. rewrite P in C. inversion C as [|y z Ce C']; subst. destruct (Ce H P) as [Q _]. cbn [negb andb].
    unfold special. rewrite H. cbn [andb]. unfold hit in Q. rewrite H in Q. rewrite Q. destruct (named name e) eqn:X; [apply (hit_named name e L H) in X; unfold hit in X; rewrite H in X; congruence|]. cbn [orb]. apply IH; assumption.
Qed.
Lemma void_none : forall name stop l, Forall okel l -> in_strs name void_names = true -> ordinary name = true -> find_p (element name) stop l = None.
Proof.
  intros name stop l O V Or. induction O as [|e t Oe O IH]; [reflexivity|]. cbn [find_p]. destruct (element name e) eqn:E; [|destruct (stop e); [reflexivity|exact IH]]. exfalso.
  unfold okel in Oe. rewrite (element_html _ _ E), (element_name _ _ E) in Oe. destruct Oe as [_ [Oe|[_ Oe]]]; [|congruence]. rewrite (in_apart _ _ V (formatting_names ++ map u ["body"; "html"]) ltac:(vm_compute; reflexivity)) in Oe. discriminate.
Qed.
Definition end_body (name : str) (l : stack) : stack * made :=
    if str_eqb name (u "br") then insert name true false false l
    else if in_strs name headings then (or_same (find_heading l) l, [])
    else
      match l with
      | e :: t =>
        if matches_end name e then (t, [])
        else
          let found :=
            if str_eqb name (u "p") then find_before name p_scope l
            else if str_eqb name (u "li") then find_before name list_item_scope l
            else if in_strs name (map u ["dd"; "dt"]) then find_before name definition_scope l
            else if in_strs name (map u ["audio"; "noscript"; "slot"; "title"]) then find_special name l
            else if str_eqb name (u "summary") then find_before name default_scope l
            else if negb (in_strs name special_names) && negb (in_strs name p_closing) then find_before name general_scope l
            else find_before name default_scope l in
          match found with
          | Some below => (below, [])
          | None => if str_eqb name (u "p")
                    then let '(l, m) := insert name true false false l in (or_same (close_until (u "p") p_scope l) l, m)
                    else (l, [])
          end
      | [] => ([], [])
      end.
Lemma end_unfold : forall name l, end_tag name l = match stays name l with Stay l => (l, []) | Leave => end_body name l end.
Proof. reflexivity. Qed.
(* br and p *)
Lemma br_p_end : forall name l, inv l -> in_strs name (map u ["br"; "p"]) = true -> end_body name l = std_body_end name (leave_foreign l).
Proof.
  intros name l I B. pose proof (good_leave l I) as G. change (map u ["br"; "p"]) with ([u "br"] ++ [u "p"]) in B. rewrite in_strs_app, !in_one in B. rewrite std_end_cut. unfold one_of, end_body. destruct (str_eqb name (u "br")) eqn:E1.
  - apply str_eqb_eq in E1. subst name. rewrite (insert_ns (u "br") true false false l _ _ (ns_breaks (u "br") l eq_refl (i_bottom l I))). reflexivity.
  - cbn [orb] in B. apply str_eqb_eq in B. subst name. change (in_strs (u "p") (map u blocks_end)) with false. change (in_strs (u "p") (map u ["p"])) with true. change (in_strs (u "p") headings) with false. cbv iota.
    assert (find_before (u "p") p_scope l = find_p (is "p") (ends_scope ["button"]) (leave_foreign l)) as FB.
    { change (is "p") with (element (u "p")). rewrite <- (scope_sound (u "p") p_scope ["button"] (leave_foreign l) (proj1 G) (proj2 G)) by (vm_compute; reflexivity). rewrite !find_before_p. apply find_leave.
      - intros e Ie F. apply (foreign_named "p"); [|exact F|vm_compute; reflexivity]. pose proof (i_el l I) as O. rewrite Forall_forall in O. exact (O e Ie).
      - intros e F P. rewrite F, boundary_point. exact P. }
    change (str_eqb (u "p") (u "p")) with true. cbv iota. rewrite FB.
    destruct l as [|e t]; [destruct (bottom_ne _ (i_bottom _ I) eq_refl)|].
    destruct (matches_end (u "p") e) eqn:M.
    + assert (named (u "p") e = true) as N.
      { unfold matches_end in M. destruct (html e) eqn:H; [cbn [negb andb] in M; rewrite orb_false_r in M; exact M|]. exfalso. pose proof (i_el _ I) as O. inversion O as [|y z Oe _]; subst. destruct (foreign_lower e Oe H) as [n [Ln [Bn [Le C]]]].
        rewrite (foreign_named "p" e Oe H) in M by (vm_compute; reflexivity). cbn [negb andb orb] in M. apply str_eqb_eq in M. rewrite M in Le. subst n. vm_compute in Bn. discriminate. }
      rewrite <- FB. cbn [find_before]. rewrite N. reflexivity.
    + destruct (find_p (is "p") (ends_scope ["button"]) (leave_foreign (e :: t))) as [b|]; [reflexivity|].
      rewrite (insert_ns (u "p") true false false (e :: t) _ _ (ns_breaks (u "p") (e :: t) eq_refl (i_bottom _ I))). reflexivity.
Qed.
Lemma top_match : forall name e t, lower name = name -> clear_top name (e :: t) -> hit name e = false \/ html e = true -> matches_end name e = element name e.
Proof.
  intros name e t L C Q. unfold matches_end, element. destruct (html e) eqn:H; [cbn [negb andb]; apply orb_false_r|]. destruct Q as [Q|Q]; [|discriminate]. unfold hit in Q. rewrite H in Q. cbn [negb andb]. rewrite Q, orb_false_r.
  unfold named. destruct (str_eqb (en e) name) eqn:E; [|reflexivity]. apply str_eqb_eq in E. rewrite E, L, str_eqb_refl in Q. discriminate.
Qed.
Ltac nm := vm_compute; reflexivity.
Lemma body_end : forall name l, inv l -> lower name = name -> ordinary name = true -> in_strs name (map u ["br"; "p"]) = false -> clear_top name l ->
  match l with e :: _ => hit name e = false \/ html e = true | [] => True end ->
  one_of (svg_points ++ mathml_points) name = false ->
  (negb (one_of ["dd"; "dt"] name) || negb (in_scope (element name) [] l) || in_scope (element name) ["dl"] l) = true ->
  (negb (one_of ["audio"; "slot"] name) || any_other name l || negb (existsb (fun e => str_eqb (lower (en e)) name) l)) = true ->
  (negb (other_end name) || negb (reaches (is "dialog") (fun e => element name e || special_element e) l)) = true ->
  end_body name l = std_body_end name l.
Proof.
  intros name l I L Or B C T N K1 K2 K3. pose proof (i_el l I) as O. rewrite std_end_cut. unfold end_body.
  assert (str_eqb name (u "br") = false /\ str_eqb name (u "p") = false) as [B1 B2] by (change (map u ["br"; "p"]) with ([u "br"] ++ [u "p"]) in B; rewrite in_strs_app, !in_one in B; apply orb_false_iff in B; exact B).
  rewrite B1, B2. unfold one_of. change (map u ["p"]) with [u "p"]. change (map u ["br"]) with [u "br"]. rewrite !(in_one name (u "p")), !(in_one name (u "br")), B1, B2.
  change (map u ["h1"; "h2"; "h3"; "h4"; "h5"; "h6"]) with headings.
  destruct (in_strs name headings) eqn:Hd.
  { rewrite (in_apart _ _ Hd (map u blocks_end) ltac:(nm)), (in_apart _ _ Hd (map u ["li"]) ltac:(nm)), (in_apart _ _ Hd (map u ["dd"; "dt"]) ltac:(nm)). f_equal. unfold cut. f_equal. rewrite find_heading_p. apply agree.
    apply upper_sub in O. unfold clear_top in C. rewrite Forall_forall in *. intros e Ie. specialize (C e Ie). specialize (O e Ie). unfold agrees. rewrite (headings_is e O). split; [reflexivity|].
    unfold foreign_boundary. destruct (html e) eqn:H.
    - cbn [negb andb]. rewrite orb_false_r. split; [apply scope_html; [exact H|nm]|]. intros P. rewrite (point_foreign e P) in H. discriminate.
    - fold (foreign_boundary e). assert (foreign_boundary e = negb false && (html_point e || text_point e)) as FB by (unfold foreign_boundary; rewrite H; reflexivity). rewrite <- FB, boundary_point. cbn [andb orb]. rewrite (ends_foreign _ _ H). destruct (point e) eqn:P; [repeat split|]. rewrite (proj2 (C eq_refl eq_refl)). split; [reflexivity|discriminate]. }
  set (found := if str_eqb name (u "li") then _ else _).
  set (sd := if in_strs name (map u blocks_end) then _ else _).
  assert (exists stop, sd = (cut (element name) stop l, []) /\ (match l with e :: _ => element name e = false | [] => True end -> found = find_p (element name) stop l)) as [stop [-> HF]].
  { subst found sd. change (map u ["li"]) with [u "li"]. rewrite (in_one name (u "li")). destruct (in_strs name (map u blocks_end)) eqn:C1.
    { exists (ends_scope []). split; [reflexivity|]. intros _. rewrite <- (in_one name (u "li")), (in_apart _ _ C1 [u "li"] ltac:(nm)), (in_apart _ _ C1 (map u ["dd"; "dt"]) ltac:(nm)), (in_apart _ _ C1 (map u ["audio"; "noscript"; "slot"; "title"]) ltac:(nm)).
      assert (negb (in_strs name special_names) && negb (in_strs name p_closing) = false) as SP.
      { pose proof (in_sub _ _ C1 (special_names ++ p_closing) ltac:(nm)) as X. rewrite in_strs_app in X. destruct (in_strs name special_names), (in_strs name p_closing); [reflexivity|reflexivity|reflexivity|discriminate]. }
      rewrite SP. destruct (str_eqb name (u "summary")); (apply scope_end; [exact L|exact C|exact O|exact N|nm]). }
    destruct (str_eqb name (u "li")) eqn:C2. { exists (ends_scope ["ol"; "ul"]). split; [reflexivity|]. intros _. apply scope_end; [exact L|exact C|exact O|exact N|nm]. }
    destruct (in_strs name (map u ["dd"; "dt"])) eqn:C3.
    { exists (ends_scope []). split; [reflexivity|]. intros _. rewrite (scope_end name definition_scope ["dl"] l L C O N) by nm. unfold one_of in K1. rewrite C3 in K1. cbn [negb orb] in K1. unfold in_scope in K1. rewrite !find_std.
      assert (reaches (element name) (ends_scope ["dl"]) l = true -> reaches (element name) (ends_scope []) l = true) as M.
      { apply reaches_mono. apply Forall_forall. intros e _ H. destruct (html e) eqn:He; [|rewrite (ends_foreign [] _ He) in H; rewrite (ends_foreign ["dl"] _ He); exact H]. rewrite (ends_html [] _ He) in H. rewrite (ends_html ["dl"] _ He). exact (in_sub _ _ H (scope_names ["dl"]) ltac:(nm)). }
      destruct (reaches (element name) (ends_scope []) l), (reaches (element name) (ends_scope ["dl"]) l); try reflexivity; [discriminate|discriminate (M eq_refl)]. }
    exists special_element. split; [reflexivity|]. intros _.
    assert (in_strs name (map u ["audio"; "noscript"; "slot"; "title"]) = one_of ["audio"; "slot"] name) as AS.
    { unfold one_of. destruct (in_strs name (map u ["audio"; "noscript"; "slot"; "title"])) eqn:X; symmetry.
      - pose proof (in_sub _ _ X (map u ["audio"; "slot"] ++ other_rules) ltac:(nm)) as Y. rewrite in_strs_app in Y. unfold ordinary in Or. apply negb_true_iff in Or. rewrite Or, orb_false_r in Y. exact Y.
      - refine (not_in_sub _ _ _ _ X). nm. }
    assert (other_end name = true) as OE.
    { unfold other_end, one_of. apply negb_true_iff. rewrite map_app, in_strs_app. change (in_strs name (map u ["address"; "article"; "aside"; "blockquote"; "button"; "center"; "details"; "dialog"; "dir"; "div"; "dl"; "fieldset"; "figcaption"; "figure"; "footer"; "header"; "hgroup"; "listing"; "main"; "menu"; "nav"; "ol"; "pre"; "search"; "section"; "summary"; "ul"; "applet"; "marquee"; "object"])) with (in_strs name (map u blocks_end)). rewrite C1. cbn [orb].
      refine (not_in_sub ([u "li"] ++ map u ["dd"; "dt"] ++ headings ++ [u "p"] ++ [u "br"]) _ _ _ _); [nm|]. rewrite !in_strs_app, !in_one, C2, C3, Hd, B1, B2. reflexivity. }
    rewrite OE in K3. cbn [negb orb] in K3. apply negb_true_iff in K3.
    rewrite AS. destruct (one_of ["audio"; "slot"] name) eqn:A.
    { rewrite find_special_p. cbn [negb orb] in K2. unfold any_other in K2. destruct (find_p (element name) special_element l) as [b|] eqn:F; [exact (slot_find name l b L O C K3 F)|].
      apply find_none in F. rewrite F in K2. cbn [orb] in K2. apply negb_true_iff in K2. apply find_none. destruct (reaches (matches_end name) special l) eqn:R; [|reflexivity]. exfalso. apply reaches_existsb in R. apply existsb_exists in R. destruct R as [e [Ie Me]].
      assert (existsb (fun e => str_eqb (lower (en e)) name) l = true) as X; [|congruence]. apply existsb_exists. exists e. split; [exact Ie|]. unfold matches_end in Me. apply orb_true_iff in Me. destruct Me as [Me|Me]; [unfold named in Me; apply str_eqb_eq in Me; rewrite Me, L; apply str_eqb_refl|apply andb_true_iff in Me; exact (proj2 Me)]. }
    rewrite <- (in_one name (u "summary")).
    assert (in_strs name [u "summary"] = false) as -> by (refine (not_in_sub _ _ _ _ C1); nm).
    destruct (negb (in_strs name special_names) && negb (in_strs name p_closing)) eqn:SP.
    - rewrite <- (dialog_free name l O K3). apply scope_agree; try assumption; intros e.
      + intros Oe H. unfold general_stop. rewrite H. reflexivity.
      + intros H. unfold general_stop. rewrite H. apply special_foreign. exact H.
    - assert (in_strs name void_names = true) as V.
      { assert (in_strs name (special_names ++ p_closing) = true) as X by (rewrite in_strs_app; destruct (in_strs name special_names), (in_strs name p_closing); [reflexivity|reflexivity|reflexivity|discriminate]).
        pose proof (in_sub _ _ X (void_names ++ map u blocks_end ++ [u "li"] ++ map u ["dd"; "dt"] ++ headings ++ [u "p"] ++ [u "br"] ++ other_rules) ltac:(nm)) as Y. rewrite !in_strs_app, !in_one, C1, C2, C3, Hd, B1, B2 in Y. unfold ordinary in Or. apply negb_true_iff in Or. rewrite Or in Y. cbn [orb] in Y. rewrite orb_false_r in Y. exact Y. }
      rewrite (scope_end name default_scope [] l L C O N) by nm. rewrite !(void_none name _ l O V Or). reflexivity. }
  clearbody found. destruct l as [|e t]; [destruct (bottom_ne _ (i_bottom _ I) eq_refl)|]. rewrite (top_match name e t L C T). unfold cut. destruct (element name e) eqn:E.
  - cbn [find_p]. rewrite E. reflexivity.
  - rewrite (HF eq_refl). destruct (find_p (element name) stop (e :: t)); reflexivity.
Qed.
Lemma loop_none_run : forall name l, foreign_loop name l = Html_rules -> chained l -> Forall (fun e => html e = false -> point e = false -> hit name e = false) (upper l).
Proof.
  intros name l F C.
  assert (reaches (fun e => negb (html e) && hit name e) (fun e => html e || point e) l = false) as R.
  { clear C. induction l as [|e t IH]; [reflexivity|]. cbn [foreign_loop reaches] in *. destruct (html e) eqn:H; [reflexivity|]. unfold hit at 1. rewrite H. cbn [negb andb orb]. destruct (str_eqb (lower (en e)) name); [discriminate|]. cbn [orb]. destruct (point e); [reflexivity|exact (IH F)]. }
  pose proof (upper_near _ l C R) as U. eapply Forall_impl; [|exact U]. cbn beta. intros e Ue H P. specialize (Ue H P). rewrite H in Ue. exact Ue.
Qed.
Lemma loop_clear : forall name l, inv l -> foreign_loop name l = Html_rules -> reaches unencoded (fun e => html e || point e) l = false -> clear_top name l.
Proof.
  intros name l I F R. pose proof (loop_none_run name l F (i_chain l I)) as A. pose proof (upper_near _ l (i_chain l I) R) as B. unfold clear_top. rewrite Forall_forall in *. intros e Ie H P. split; [exact (A e Ie H P)|exact (B e Ie H P)].
Qed.
Theorem end_follows : forall name l, inv l -> lower name = name -> ordinary name = true -> ok_end name l = true -> end_tag name l = std_end name l.
Proof.
  intros name l I L Or K. rewrite end_unfold. unfold std_end, ok_end in *. destruct l as [|e t]; [destruct (bottom_ne _ (i_bottom _ I) eq_refl)|].
  assert (forall X, (false || X) = true -> X = true) as FO by (intros X HX; exact HX).
  assert (foreign_loop name (e :: t) = Html_rules -> (negb (one_of (svg_points ++ mathml_points) name) && negb (reaches unencoded (fun e => html e || point e) (e :: t)) && (negb (one_of ["dd"; "dt"] name) || negb (in_scope (element name) [] (e :: t)) || in_scope (element name) ["dl"] (e :: t)) && (negb (one_of ["audio"; "slot"] name) || any_other name (e :: t) || negb (existsb (fun e => str_eqb (lower (en e)) name) (e :: t))) && (negb (other_end name) || negb (reaches (is "dialog") (fun e => element name e || special_element e) (e :: t)))) = true ->
    in_strs name (map u ["br"; "p"]) = false -> hit name e = false \/ html e = true -> end_body name (e :: t) = std_body_end name (e :: t)) as BE.
  { intros F X B T. apply andb_true_iff in X. destruct X as [X X5]. apply andb_true_iff in X. destruct X as [X X4]. apply andb_true_iff in X. destruct X as [X X3]. apply andb_true_iff in X. destruct X as [X1 X2]. apply negb_true_iff in X1. apply negb_true_iff in X2.
    apply body_end; try assumption. apply loop_clear; assumption. }
  destruct (html e) eqn:H.
  - cbn [negb andb orb] in K. assert (stays name (e :: t) = Leave) as -> by (unfold stays; rewrite H; reflexivity).
    destruct (in_strs name (map u ["br"; "p"])) eqn:B.
    + rewrite (br_p_end name (e :: t) I B). rewrite leave_sound by (cbn [sound_top]; rewrite H; reflexivity). reflexivity.
    + apply BE; [|exact K|reflexivity|right; reflexivity]. cbn [foreign_loop]. rewrite H. reflexivity.
  - unfold one_of at 1. destruct (in_strs name (map u ["br"; "p"])) eqn:B.
    + assert (stays name (e :: t) = Leave) as -> by (unfold stays; rewrite H, B; reflexivity). exact (br_p_end name (e :: t) I B).
    + pose proof (stays_spec name e t I H L B) as S. destruct (foreign_loop name (e :: t)) as [m|] eqn:F; [rewrite S; reflexivity|].
      destruct S as [S|[S [r [h [w [E [R P]]]]]]]; rewrite S.
      * rewrite andb_false_r in K. apply BE; [reflexivity|exact K|reflexivity|left]. cbn [foreign_loop] in F. rewrite H in F. unfold hit. rewrite H. destruct (str_eqb (lower (en e)) name); [discriminate|reflexivity].
      * rewrite E. symmetry. apply blocked_end; assumption.
Qed.
Lemma foreign_popped : forall name l t, inv l -> foreign_loop name l = Popped t -> inv t.
Proof.
  intros name l t I F. assert (suffix t l /\ bottom t) as [S B]; [|exact (inv_suffix t l S I B)]. destruct I as [_ _ _ _ B]. revert B F. induction l as [|e r IH]; intros B F; [discriminate|]. cbn [foreign_loop] in F. destruct (html e) eqn:H; [discriminate|].
  assert (bottom r) as B' by (apply (bottom_tail e r B); intros ->; discriminate). destruct (str_eqb (lower (en e)) name).
  - injection F as <-. split; [apply suffix_cons|exact B'].
  - destruct (IH B' F) as [S Bt]. split; [eapply suffix_trans; [exact S|apply suffix_cons]|exact Bt].
Qed.
Lemma body_end_inv : forall name l, inv l -> ordinary name = true -> inv (fst (std_body_end name l)).
Proof.
  intros name l I Or. rewrite std_end_cut.
  assert (in_strs name (map u ["body"; "html"]) = false) as N by (apply (not_in_sub other_rules); [vm_compute; reflexivity|apply negb_true_iff; exact Or]).
  change (map u ["body"; "html"]) with ([u "body"] ++ [u "html"]) in N. rewrite in_strs_app, !in_one in N. apply orb_false_iff in N. destruct N as [N1 N2].
  assert (forall n (c d : str), str_eqb n c = false -> d = c -> str_eqb d n = false) as SY by (intros n c d A ->; destruct (str_eqb c n) eqn:X; [apply str_eqb_eq in X; subst c; rewrite str_eqb_refl in A; discriminate|reflexivity]).
  assert (forall stop, inv (cut (element name) stop l)) as C.
  { intros stop. apply inv_cut; [exact I|exact (SY name (u "body") _ N1 eq_refl)|exact (SY name (u "html") _ N2 eq_refl)]. }
  repeat match goal with |- context [one_of ?a name] => destruct (one_of a name); [cbn [fst]; try apply C; try exact I|] end; try (cbn [fst]; apply C).
  - destruct (find_p (is "p") (ends_scope ["button"]) l) as [t|] eqn:F; [|exact I]. cbn [fst]. pose proof (inv_cut (is "p") (ends_scope ["button"]) l I eq_refl eq_refl) as X. unfold cut in X. rewrite F in X. exact X.
  - apply inv_cut; [exact I|reflexivity|reflexivity].
Qed.
Theorem end_inv : forall name l, inv l -> ordinary name = true -> inv (fst (std_end name l)).
Proof.
  intros name l I Or. unfold std_end. destruct l as [|e t]; [exact I|]. destruct (html e); [apply body_end_inv; assumption|]. destruct (one_of ["br"; "p"] name); [apply body_end_inv; [exact (proj1 (good_leave _ I))|exact Or]|].
  destruct (foreign_loop name (e :: t)) as [m|] eqn:F; [exact (foreign_popped name _ m I F)|apply body_end_inv; assumption].
Qed.
