(* PROOFS for C66, part 3: start tags *)
From Coq Require Import List Arith Bool String Lia.
From Verif Require Import Str StrFacts SerTreeProofs.
From Verif Require Import AaaModel GuardModel CloseModel CloseSpec CloseProofs1 CloseProofs2.
Import ListNotations.
Open Scope string_scope. Open Scope list_scope. Open Scope nat_scope.

Definition std_specials : list str := map u ["address"; "applet"; "area"; "article"; "aside"; "base"; "basefont"; "bgsound"; "blockquote"; "body"; "br"; "button"; "caption"; "center"; "col"; "colgroup"; "dd"; "details"; "dir"; "div"; "dl"; "dt"; "embed"; "fieldset"; "figcaption"; "figure"; "footer"; "form"; "frame"; "frameset"; "h1"; "h2"; "h3"; "h4"; "h5"; "h6"; "head"; "header"; "hgroup"; "hr"; "html"; "iframe"; "img"; "input"; "keygen"; "li"; "link"; "listing"; "main"; "marquee"; "menu"; "meta"; "nav"; "noembed"; "noframes"; "noscript"; "object"; "ol"; "p"; "param"; "plaintext"; "pre"; "script"; "search"; "section"; "select"; "source"; "style"; "summary"; "table"; "tbody"; "td"; "template"; "textarea"; "tfoot"; "th"; "thead"; "title"; "tr"; "track"; "ul"; "wbr"; "xmp"].
Lemma special_html : forall e, html e = true -> special_element e = in_strs (en e) std_specials.
Proof. intros [n s c] H. destruct s; [reflexivity|discriminate|discriminate]. Qed.
Lemma code_special_html : forall e, html e = true -> special e = in_strs (en e) special_names.
Proof. intros e H. unfold special. rewrite H. reflexivity. Qed.
Definition scope_names (more : list string) : list str := map u (more ++ ["applet"; "caption"; "html"; "table"; "td"; "th"; "marquee"; "object"; "template"]).
Lemma ends_html : forall more e, html e = true -> ends_scope more e = in_strs (en e) (scope_names more).
Proof. intros more [n s c] H. destruct s; [reflexivity|discriminate|discriminate]. Qed.

(* the names of HTML elements on the stack *)
Lemma html_name : forall e X, okel e -> html e = true -> in_strs (en e) X = true ->
  forall Y, apart X formatting_names = true -> sub X (Y ++ map u ["body"; "html"] ++ void_names ++ other_rules) = true -> in_strs (en e) (Y ++ map u ["body"; "html"]) = true.
Proof.
  intros e X O H I Y A S. unfold okel in O. rewrite H in O. destruct O as [_ O]. pose proof (sub_in _ _ _ S I) as J. rewrite !in_strs_app in J.
  rewrite in_strs_app in O |- *.
  destruct (in_strs (en e) Y), (in_strs (en e) (map u ["body"; "html"])); try reflexivity. cbn [orb] in *. exfalso.
  rewrite (apart_in _ _ _ A I) in O. destruct O as [O|[O V]]; [discriminate|]. unfold ordinary in O. rewrite V in J. apply negb_true_iff in O. rewrite O in J. discriminate.
Qed.
Lemma plain : forall e, okel e -> html e = true -> block e = false -> ends_scope ["button"] e = false -> special e = false /\ special_element e = false /\ is "dialog" e = false.
Proof.
  intros e O H B S. unfold block in B. rewrite H in B. cbn [andb] in B. rewrite (ends_html _ _ H) in S. rewrite (special_html _ H), (code_special_html _ H). unfold name_in, named in B. rewrite <- in_one in B. rewrite <- in_strs_app in B.
  split; [|split].
  - destruct (in_strs (en e) special_names) eqn:I; [|reflexivity]. pose proof (html_name e _ O H I (p_closing ++ scope_names ["button"])) as K. rewrite !in_strs_app in K. rewrite in_strs_app in B. apply orb_false_iff in B. destruct B as [B B2]. rewrite B, S in K. cbn [orb] in K.
    assert (in_strs (en e) (map u ["body"; "html"]) = true) as K' by (apply K; vm_compute; reflexivity). change (map u ["body"; "html"]) with ([u "body"] ++ [u "html"]) in K'. rewrite in_strs_app, B2 in K'. cbn [orb] in K'.
    rewrite (sub_in [u "html"] (scope_names ["button"])) in S; [discriminate|vm_compute; reflexivity|exact K'].
  - destruct (in_strs (en e) std_specials) eqn:I; [|reflexivity]. pose proof (html_name e _ O H I (p_closing ++ scope_names ["button"])) as K. rewrite !in_strs_app in K. rewrite in_strs_app in B. apply orb_false_iff in B. destruct B as [B B2]. rewrite B, S in K. cbn [orb] in K.
    assert (in_strs (en e) (map u ["body"; "html"]) = true) as K' by (apply K; vm_compute; reflexivity). change (map u ["body"; "html"]) with ([u "body"] ++ [u "html"]) in K'. rewrite in_strs_app, B2 in K'. cbn [orb] in K'.
    rewrite (sub_in [u "html"] (scope_names ["button"])) in S; [discriminate|vm_compute; reflexivity|exact K'].
  - unfold is. rewrite H. cbn [andb]. rewrite <- in_one. refine (not_in_sub _ _ _ _ B). vm_compute. reflexivity.
Qed.
(* outside dialog the two lists of special names are one on what the stack holds *)
Lemma special_same : forall e, okel e -> html e = true -> is "dialog" e = false -> special e = special_element e.
Proof.
  intros e O H D. rewrite (special_html _ H), (code_special_html _ H). unfold is in D. rewrite H in D. cbn [andb] in D. rewrite <- in_one in D.
  destruct (in_strs (en e) std_specials) eqn:I.
  - assert (in_strs (en e) (special_names ++ [u "xmp"]) = true) as J by (refine (sub_in _ _ _ _ I); vm_compute; reflexivity). rewrite in_strs_app in J. apply orb_true_iff in J. destruct J as [J|J]; [exact J|].
    exfalso. unfold okel in O. rewrite H in O. destruct O as [_ [O|[O _]]].
    + rewrite (apart_in [u "xmp"] (formatting_names ++ map u ["body"; "html"])) in O; [discriminate|vm_compute; reflexivity|exact J].
    + unfold ordinary in O. rewrite (sub_in [u "xmp"] other_rules) in O; [discriminate|vm_compute; reflexivity|exact J].
  - refine (not_in_sub (std_specials ++ [u "dialog"]) _ _ _ _); [vm_compute; reflexivity|]. rewrite in_strs_app, I, D. reflexivity.
Qed.
Lemma special_more : forall e, okel e -> html e = true -> special_element e = true -> special e = true.
Proof.
  intros e O H S. destruct (is "dialog" e) eqn:D; [|rewrite (special_same e O H D); exact S].
  unfold is in D. rewrite H in D. cbn [andb] in D. rewrite <- in_one in D. rewrite (code_special_html _ H). refine (sub_in _ _ _ _ D). vm_compute. reflexivity.
Qed.

(* ---- searches ---- *)
Lemma find_parts : forall p b l t, find_p p b l = Some t -> exists a e, l = a ++ e :: t /\ p e = true /\ Forall (fun x => p x = false /\ b x = false) a.
Proof.
  intros p b. induction l as [|e r IH]; intros t H; [discriminate|]. cbn [find_p] in H. destruct (p e) eqn:P.
  - injection H as <-. exists [], e. repeat split; [exact P|constructor].
  - destruct (b e) eqn:B; [discriminate|]. destruct (IH t H) as [a [x [-> [Px F]]]]. exists (e :: a), x. repeat split; [exact Px|]. constructor; [split; assumption|exact F].
Qed.
Lemma find_skip : forall p b a l, Forall (fun x => p x = false /\ b x = false) a -> find_p p b (a ++ l) = find_p p b l.
Proof. intros p b a l F. induction F as [|x a [P B] F IH]; [reflexivity|]. cbn [app find_p]. rewrite P, B. exact IH. Qed.
Lemma find_none : forall p b l, find_p p b l = None <-> reaches p b l = false.
Proof. intros. rewrite find_std. destruct (reaches p b l); split; congruence. Qed.
Lemma find_weaken : forall p b b' l t, Forall (fun e => b' e = true -> p e = false -> b e = true) l -> find_p p b l = Some t -> find_p p b' l = Some t.
Proof.
  intros p b b' l t F. induction F as [|e r H F IH]; [discriminate|]. cbn [find_p]. destruct (p e) eqn:P; [tauto|]. destruct (b e) eqn:B; [discriminate|]. destruct (b' e) eqn:B'; [|exact IH].
  specialize (H eq_refl eq_refl). congruence.
Qed.
Lemma find_generate : forall p b x l, (forall e, html e = true -> in_strs (en e) implied_names = true -> p e = true \/ b e = true -> x e = true) -> find_p p b (generate x l) = find_p p b l.
Proof.
  intros p b x l H. induction l as [|e t IH]; [reflexivity|]. cbn [generate]. destruct (html e && _ && negb (x e)) eqn:G; [|reflexivity].
  apply andb_true_iff in G. destruct G as [G X]. apply andb_true_iff in G. destruct G as [G I]. apply negb_true_iff in X. cbn [find_p].
  assert (in_strs (en e) implied_names = true) as I' by exact I. specialize (H e G I').
  destruct (p e); [rewrite H in X by (left; reflexivity); discriminate|]. destruct (b e); [rewrite H in X by (right; reflexivity); discriminate|]. exact IH.
Qed.
Lemma implied_generate : forall x x' l, chained l -> sound_top l = true -> Forall (fun e => html e = true -> match x with Some n => named n e | None => false end = x' e) l -> implied x l = generate x' l.
Proof.
  intros x x' l. induction l as [|e t IH]; intros C S F; [reflexivity|]. cbn [implied generate]. inversion F as [|y z H F']; subst. cbn [sound_top] in S.
  destruct (html e) eqn:He.
  - rewrite (H eq_refl). cbn [andb]. unfold name_in, one_of. change (map u ["dd"; "dt"; "li"; "optgroup"; "option"; "p"; "rb"; "rp"; "rt"; "rtc"]) with implied_names.
    destruct (_ && _); [|reflexivity]. destruct C as [C C']. destruct t as [|f t]; [reflexivity|]. apply IH; [exact C'|apply C; [exact He|discriminate]|exact F'].
  - cbn [orb andb] in *. replace (name_in implied_names e) with false; [reflexivity|]. symmetry. unfold name_in.
    destruct e as [n s c]. cbn [en]. unfold point, mathml_text_point, html_integration_point, one_of in S. cbn [es en enc] in S. destruct s; [discriminate| |].
    + cbn [orb] in S. refine (apart_in _ _ _ _ S). vm_compute. reflexivity.
    + apply orb_true_iff in S. destruct S as [S|S]; [|apply andb_true_iff in S; destruct S as [S _]]; (refine (apart_in _ _ _ _ S); vm_compute; reflexivity).
Qed.
(* points do not bear the names of HTML elements *)
Lemma point_name : forall e, point e = true -> in_strs (en e) (map u (svg_points ++ mathml_points)) = true.
Proof.
  intros [n s c] S. cbn [en]. unfold point, mathml_text_point, html_integration_point, one_of in S. cbn [es en enc] in S. destruct s; [discriminate| |].
  - cbn [orb] in S. refine (sub_in _ _ _ _ S). vm_compute. reflexivity.
  - apply orb_true_iff in S. destruct S as [S|S]; [|apply andb_true_iff in S; destruct S as [S _]]; (refine (sub_in _ _ _ _ S); vm_compute; reflexivity).
Qed.
Lemma point_not_named : forall n e, one_of (svg_points ++ mathml_points) n = false -> point e = true -> named n e = false.
Proof. intros n e H P. unfold named. destruct (str_eqb (en e) n) eqn:E; [|reflexivity]. apply str_eqb_eq in E. apply point_name in P. rewrite E in P. unfold one_of in H. congruence. Qed.
Lemma element_html : forall n e, element n e = true -> html e = true.
Proof. intros n e H. unfold element in H. apply andb_true_iff in H. exact (proj1 H). Qed.
Lemma upper_okel : forall l, inv l -> Forall okel (upper l).
Proof. intros l I. apply upper_sub. apply i_el. exact I. Qed.
(* the scopes of the code and of the standard, on a stack with a sound top *)
Lemma scope_sound : forall name bounds more l, inv l -> sound_top l = true -> one_of (svg_points ++ mathml_points) name = false ->
  sub bounds (scope_names more) && sub (scope_names more) bounds = true -> find_before name bounds l = find_p (element name) (ends_scope more) l.
Proof.
  intros name bounds more l I S N B. rewrite find_before_p. apply agree. pose proof (upper_sound l (i_chain l I) (or_intror S)) as U. eapply Forall_impl; [|exact U].
  intros e [H|H]; unfold agrees.
  - rewrite H, (element_named _ _ H), (scope_html more bounds e H B). split; [reflexivity|]. split; [reflexivity|]. intros P. rewrite (point_foreign e P) in H. discriminate.
  - rewrite (point_foreign e H), (point_not_named name e N H), boundary_point, H, (ends_foreign more e (point_foreign e H)), H. unfold element. rewrite (point_foreign e H). repeat split.
Qed.

(* ---- p ---- *)
Definition pclose (l : stack) : stack := if match find_before (u "p") p_scope l with Some _ => true | None => false end then or_same (close_until (u "p") p_scope l) l else l.
Definition pbound (e : el) : bool := if html e then name_in p_scope e else foreign_boundary e.
Lemma pclose_cut : forall l, pclose l = cut (named (u "p")) pbound l.
Proof.
  intros l. unfold pclose, cut. rewrite find_before_p, close_until_p. fold pbound. destruct (find_p (named (u "p")) pbound l) as [t|] eqn:E; [|reflexivity]. cbn [or_same].
  rewrite (find_weaken _ _ (fun e => html e && name_in p_scope e) l t) with (2 := E); [reflexivity|]. apply Forall_forall. intros e _ H _. unfold pbound. apply andb_true_iff in H. destruct H as [H K]. rewrite H. exact K.
Qed.
Lemma close_p_cut : forall l, close_p l = cut (is "p") (ends_scope ["button"]) l.
Proof.
  intros l. rewrite cut_std. unfold close_p, in_scope. destruct (reaches _ _ l); [|reflexivity]. apply generate_until. intros e H. rewrite H. cbn [negb]. apply andb_false_r.
Qed.
Lemma pclose_std : forall l, inv l -> sound_top l = true -> pclose l = close_p l.
Proof.
  intros l I S. rewrite pclose_cut, close_p_cut. unfold cut. f_equal. unfold pbound. rewrite <- find_before_p. rewrite (scope_sound (u "p") p_scope ["button"] l I S); [|vm_compute; reflexivity|vm_compute; reflexivity]. reflexivity.
Qed.
Lemma inv_cut : forall p b l, inv l -> p the_body = false -> p the_html = false -> inv (cut p b l).
Proof. intros p b l I B H. eapply inv_suffix; [apply cut_suffix|exact I|apply bottom_cut; [exact (i_bottom l I)|exact B|exact H]]. Qed.
Lemma sound_cut : forall p b l, inv l -> sound_top l = true -> (forall e, p e = true -> html e = true) -> p the_body = false -> p the_html = false -> sound_top (cut p b l) = true.
Proof.
  intros p b l I S P B H. unfold cut. destruct (find_p p b l) as [t|] eqn:E; [|exact S]. cbn [or_same]. refine (find_sound p b l t (i_chain l I) (i_bottom l I) _ B H E). intros e _. apply P.
Qed.
Lemma is_html : forall n e, is n e = true -> html e = true.
Proof. intros n e H. exact (element_html _ _ H). Qed.
Lemma is_name : forall n e, is n e = true -> en e = u n.
Proof. intros n e H. unfold is in H. apply andb_true_iff in H. apply str_eqb_eq. exact (proj2 H). Qed.
Lemma found_no_p : forall w b l t, nopara l -> (forall e, w e = true -> block e = true) -> find_p w b l = Some t -> in_scope (is "p") ["button"] t = false.
Proof.
  intros w b l t N W E. destruct (find_parts _ _ _ _ E) as [a [e [-> [P _]]]]. assert (nopara (e :: t)) as [H _] by (eapply nopara_suffix; [exists a; reflexivity|exact N]). apply H. apply W. exact P.
Qed.
Lemma p_block : forall e, is "p" e = true -> block e = true.
Proof. intros e H. unfold block, name_in. rewrite (is_html _ _ H), (is_name _ _ H). vm_compute. reflexivity. Qed.
Lemma close_p_none : forall l, in_scope (is "p") ["button"] l = false -> close_p l = l.
Proof. intros l H. unfold close_p. rewrite H. reflexivity. Qed.
Lemma after_close_p : forall l, nopara l -> in_scope (is "p") ["button"] (close_p l) = false.
Proof.
  intros l N. rewrite close_p_cut. unfold cut. destruct (find_p _ _ l) as [t|] eqn:E; cbn [or_same].
  - exact (found_no_p _ _ _ _ N p_block E).
  - apply find_none in E. exact E.
Qed.
(* what lies above a p in button scope *)
Lemma above_p : forall l t, inv l -> sound_top l = true -> find_p (is "p") (ends_scope ["button"]) l = Some t ->
  exists a e, l = a ++ e :: t /\ is "p" e = true /\ Forall (fun x => okel x /\ html x = true /\ block x = false /\ ends_scope ["button"] x = false) a.
Proof.
  intros l t I S E. destruct (find_parts _ _ _ _ E) as [a [e [-> [P F]]]]. exists a, e. split; [reflexivity|]. split; [exact P|].
  destruct I as [C O N _ _]. clear E. revert C S O N F. induction a as [|x a IH]; intros C S O N F; [constructor|].
  inversion F as [|y z [Px Bx] F']; subst. cbn [app] in *. inversion O as [|y z Ox O']; subst. destruct C as [C C']. destruct N as [N N']. cbn [sound_top] in S.
  assert (html x = true) as H.
  { apply orb_true_iff in S. destruct S as [S|S]; [exact S|]. exfalso. rewrite (ends_foreign _ _ (point_foreign x S)), S in Bx. discriminate. }
  constructor.
  - repeat split; [exact Ox|exact H| |exact Bx]. destruct (block x) eqn:K; [|reflexivity]. specialize (N eq_refl). apply find_none in N. rewrite (find_skip _ _ a (e :: t) F') in N. cbn [find_p] in N. rewrite P in N. discriminate.
  - apply IH; [exact C'|apply C; [exact H|destruct a; discriminate]|exact O'|exact N'|exact F'].
Qed.
(* items: close p first or last *)
Lemma item_p : forall w b' l, inv l -> sound_top l = true -> (forall e, w e = true -> block e = true /\ is "p" e = false) ->
  (forall e, okel e -> html e = true -> block e = false -> ends_scope ["button"] e = false -> b' e = false) -> (forall e, is "p" e = true -> b' e = false) ->
  find_p w b' l = find_p w stops_item l -> or_same (find_p w b' (close_p l)) (close_p l) = close_p (or_same (find_p w stops_item l) l).
Proof.
  intros w b' l I S W B Bp E.
  assert (forall t, find_p w stops_item l = Some t -> close_p t = t) as K.
  { intros t F. apply close_p_none. refine (found_no_p w stops_item l t (i_para l I) _ F). intros e We. exact (proj1 (W e We)). }
  destruct (find_p (is "p") (ends_scope ["button"]) l) as [t|] eqn:P.
  - destruct (above_p l t I S P) as [a [e [L [Pe F]]]].
    assert (close_p l = t) as CP by (rewrite close_p_cut; unfold cut; rewrite P; reflexivity).
    assert (find_p w b' l = find_p w b' t) as E1.
    { rewrite L, find_skip.
      - cbn [find_p]. rewrite (Bp e Pe). destruct (w e) eqn:We; [|reflexivity]. rewrite (proj2 (W e We)) in Pe. discriminate.
      - eapply Forall_impl; [|exact F]. intros x [Ox [Hx [Kx Sx]]]. split; [|apply B; assumption]. destruct (w x) eqn:We; [|reflexivity]. rewrite (proj1 (W x We)) in Kx. discriminate. }
    rewrite CP, <- E1, E. destruct (find_p w stops_item l) as [r|] eqn:R; cbn [or_same]; [symmetry; apply K; reflexivity|symmetry; exact CP].
  - assert (close_p l = l) as CP by (rewrite close_p_cut; unfold cut; rewrite P; reflexivity). rewrite CP, E.
    destruct (find_p w stops_item l) as [r|] eqn:R; cbn [or_same]; symmetry; [apply K; reflexivity|exact CP].
Qed.
Lemma item_loop_parts : forall w l e, item_loop w l = Some e -> exists a t, l = a ++ e :: t /\ w e = true /\ Forall (fun x => w x = false) a /\ find_p w stops_item l = Some t.
Proof.
  intros w. induction l as [|x r IH]; intros e H; [discriminate|]. cbn [item_loop] in H. cbn [find_p]. destruct (w x) eqn:W.
  - injection H as <-. exists [], r. repeat split; [exact W|constructor].
  - destruct (stops_item x); [discriminate|]. destruct (IH e H) as [a [t [-> [We [F E]]]]]. exists (x :: a), t. repeat split; [exact We|constructor; assumption|exact E].
Qed.
Lemma item_loop_none : forall w l, item_loop w l = None -> find_p w stops_item l = None.
Proof. intros w. induction l as [|x r IH]; intros H; [reflexivity|]. cbn [item_loop find_p] in *. destruct (w x); [discriminate|]. destruct (stops_item x); [reflexivity|exact (IH H)]. Qed.
Lemma close_item_cut : forall w l, (forall e, w e = true -> html e = true) -> (forall e x, w e = true -> html x = true -> en x = en e -> w x = true) -> close_item w l = or_same (find_p w stops_item l) l.
Proof.
  intros w l Hh Hw. unfold close_item. destruct (item_loop w l) as [e|] eqn:E; [|rewrite (item_loop_none _ _ E); reflexivity].
  destruct (item_loop_parts _ _ _ E) as [a [t [L [We [F Fd]]]]]. rewrite Fd. cbn [or_same].
  rewrite generate_until by (intros x X; rewrite X; cbn [negb]; apply andb_false_r). subst l. clear E Fd.
  induction F as [|x a Wx F IH]; cbn [app pop_until].
  - unfold element at 1. rewrite (Hh e We), str_eqb_refl. reflexivity.
  - destruct (element (en e) x) eqn:X; [|exact IH]. unfold element in X. apply andb_true_iff in X. destruct X as [X Y]. apply str_eqb_eq in Y. rewrite (Hw e x We X Y) in Wx. discriminate.
Qed.
