(* C45: text nodes *)
From Coq Require Import Lia ZifyBool ZifyN ZifyNat.
From Verif Require Import Str StrFacts SerializerModel MiscSpec MdModel MdSpec MdProofs MdPre.
Open Scope list_scope. Open Scope N_scope.

Definition solid (c : N) : bool := negb (html_space c).
Definition spc (f : bool) : str := if f then [32] else [].
Definition mid (b : builder) : Prop := newline_count b = 0%nat /\ exists h x l, buf b = (h ++ [x]) :: l /\ html_space x = false.
Definition push (x : str) (b : builder) : builder := Builder (quote_depth b) (x :: (if pending_space b then [32] :: buf b else buf b)) (leading_space b) 0 false.
Lemma content_push x b : content (push x b) = content b ++ spc (pending_space b) ++ x.
Proof. unfold content, push. cbn [buf rev]. destruct (pending_space b); cbn [rev spc app]; rewrite !concat_app; cbn [List.concat]; rewrite ?app_nil_r, <- ?app_assoc; reflexivity. Qed.
Lemma mid_blank b : mid b -> empty_buf b = false /\ last_blank (buf b) = false /\ (newline_count b =? 0)%nat = true.
Proof.
  intros (H0 & h & x & l & E & Hx). rewrite H0. unfold empty_buf, last_blank. rewrite E, rev_app_distr. cbn [rev app]. split; [reflexivity|]. split; [|reflexivity].
  destruct (sp_tab x) eqn:T; [|reflexivity]. apply StrFacts.mem_In in T. cbn in T. destruct T as [<-|[<-|[]]]; discriminate Hx.
Qed.
Lemma mid_push h x b : html_space x = false -> mid (push (h ++ [x]) b).
Proof. intros Hx. split; [reflexivity|]. exists h, x, (if pending_space b then [32] :: buf b else buf b). split; [reflexivity|exact Hx]. Qed.
Lemma mid_char x t b : mid b -> html_space x = false -> text_go 0 (x :: t) b = text_go 0 t (push [x] b).
Proof.
  intros Hm Hx. destruct (mid_blank b Hm) as (E1 & E2 & E3). destruct Hm as (H0 & h & y & l & Eb & Hy). cbn [text_go]. rewrite Hx, E1, E2, E3. cbn [negb]. rewrite !andb_true_r. unfold push. rewrite H0. cbn [Nat.ltb Nat.leb]. rewrite orb_false_r.
  replace (match (if pending_space b then [32] :: buf b else buf b) with [] => true | _ => false end) with false by (rewrite Eb; destruct (pending_space b); reflexivity). reflexivity.
Qed.
Lemma mid_chars xs : forall t b, mid b -> forallb solid xs = true -> xs <> [] ->
  exists b', text_go 0 (xs ++ t) b = text_go 0 t b' /\ content b' = content b ++ spc (pending_space b) ++ xs /\ mid b' /\ pending_space b' = false.
Proof.
  induction xs as [|x xs IH]; intros t b Hm Hs Hn; [congruence|]. cbn [forallb] in Hs. apply andb_true_iff in Hs as [Hx Hs]. assert (Hx' : html_space x = false) by (unfold solid in Hx; destruct (html_space x); [discriminate Hx|reflexivity]).
  cbn [app]. rewrite mid_char by assumption. destruct xs as [|y xs].
  - exists (push [x] b). split; [reflexivity|]. split; [apply content_push|]. split; [exact (mid_push [] x b Hx')|reflexivity].
  - destruct (IH t (push [x] b) (mid_push [] x b Hx') Hs ltac:(discriminate)) as (b' & K1 & K2 & K3). exists b'. split; [exact K1|]. split; [|exact K3]. rewrite K2, content_push. cbn [push pending_space spc app]. rewrite <- !app_assoc. reflexivity.
Qed.
Lemma escape_solid c : html_space c = false -> forallb solid (escape_char c) = true /\ escape_char c <> [].
Proof.
  intros Hc. unfold escape_char. destruct (c =? 38); [split; [reflexivity|discriminate]|]. destruct (c =? 60); [split; [reflexivity|discriminate]|]. destruct (mem c (u "\`*_[]")); (split; [|discriminate]); cbn [forallb]; unfold solid; rewrite Hc; reflexivity.
Qed.
Lemma escape_space c : html_space c = true -> escape_char c = [c].
Proof. intros H. apply StrFacts.mem_In in H. cbn in H. repeat (destruct H as [<-|H]; [reflexivity|]). destruct H. Qed.
(* the text with runs of white space reduced to one space; pend: white space comes before *)
Fixpoint shown (pend : bool) (d : str) : str :=
  match d with [] => [] | c :: d => if html_space c then shown true d else spc pend ++ c :: shown false d end.
Definition trailing (pend : bool) (d : str) : bool := match rev d with [] => pend | c :: _ => html_space c end.
Lemma displays_space o t f : displays o t -> displays (spc f ++ o) (spc f ++ t).
Proof. intros H. apply displays_app; [|exact H]. destruct f; cbn [spc]; [apply (DChar 32 [] []); [|constructor]|constructor]. intros I. cbn in I. repeat (destruct I as [I|I]; [discriminate I|]). destruct I. Qed.
Lemma space_not c : html_space c = false -> ~ In c [10; 13].
Proof. intros H [<-|[<-|[]]]; discriminate H. Qed.
Lemma mid_text d : forall b, mid b -> exists o b', text_go 0 (escape_text d) b = b' /\ content b' = content b ++ o /\ displays o (shown (pending_space b) d) /\ mid b'.
Proof.
  induction d as [|c d IH]; intros b Hm; [exists [], b; cbn [escape_text flat_map text_go shown]; rewrite app_nil_r; repeat split; try apply Hm; constructor|].
  change (escape_text (c :: d)) with (escape_char c ++ escape_text d). cbn [shown]. destruct (html_space c) eqn:Hc.
  - rewrite (escape_space c Hc). cbn [app text_go]. rewrite Hc. set (b1 := Builder _ _ _ _ true). assert (M1 : mid b1) by exact Hm. destruct (IH b1 M1) as (o & b' & K1 & K2 & K3). exists o, b'. split; [exact K1|]. split; [exact K2|exact K3].
  - destruct (escape_solid c Hc) as [S1 S2]. destruct (mid_chars (escape_char c) (escape_text d) b Hm S1 S2) as (b1 & K1 & K2 & K3 & K4). rewrite K1. destruct (IH b1 K3) as (o & b' & L1 & L2 & L3 & L4). exists (spc (pending_space b) ++ escape_char c ++ o), b'. split; [exact L1|]. split; [rewrite L2, K2, <- !app_assoc; reflexivity|].
    split; [|exact L4]. apply displays_space. rewrite K4 in L3. apply (displays_app (escape_char c) [c] o); [apply displays_one, space_not; exact Hc|exact L3].
Qed.
Lemma skip_all xs t b : text_go (List.length xs) (xs ++ t) b = text_go 0 t b.
Proof. induction xs as [|x xs IH]; [reflexivity|]. cbn [List.length app text_go]. exact IH. Qed.

(* digits and what follows them are not escaped *)
Lemma digit_escape c : is_digit c = true -> escape_char c = [c].
Proof.
  intros H. unfold is_digit in H. unfold escape_char. destruct (N.eqb_spec c 38) as [->|]; [discriminate H|]. destruct (N.eqb_spec c 60) as [->|]; [discriminate H|]. destruct (mem c (u "\`*_[]")) eqn:M; [|reflexivity]. exfalso. apply StrFacts.mem_In in M. cbn in M. repeat (destruct M as [<-|M]; [discriminate H|]). destruct M.
Qed.
Lemma digit_solid c : is_digit c = true -> html_space c = false.
Proof. intros H. destruct (html_space c) eqn:E; [|reflexivity]. apply StrFacts.mem_In in E. cbn in E. repeat (destruct E as [<-|E]; [discriminate H|]). destruct E. Qed.
Lemma escape_head c : escape_char c = [c] \/ exists x y, escape_char c = x :: y /\ (x = 92 \/ x = 38).
Proof. unfold escape_char. destruct (c =? 38); [right; eexists _, _; split; [reflexivity|right; reflexivity]|]. destruct (c =? 60); [right; eexists _, _; split; [reflexivity|right; reflexivity]|]. destruct (mem c _); [right; eexists _, _; split; [reflexivity|left; reflexivity]|left; reflexivity]. Qed.
Lemma digits_split d : forall p q, drop_while is_digit (escape_text d) = p :: q -> p = 46 \/ p = 41 ->
  exists d', d = take_while is_digit (escape_text d) ++ p :: d' /\ q = escape_text d'.
Proof.
  induction d as [|c d IH]; intros p q E Hp; [discriminate E|]. change (escape_text (c :: d)) with (escape_char c ++ escape_text d) in *. destruct (is_digit c) eqn:Dc.
  - rewrite (digit_escape c Dc) in *. cbn [app drop_while take_while] in *. rewrite Dc in *. destruct (IH p q E Hp) as (d' & K1 & K2). exists d'. split; [rewrite K1 at 1; reflexivity|exact K2].
  - destruct (escape_head c) as [Ec|(x & y & Ec & Hx)]; rewrite Ec in *; cbn [app drop_while take_while] in *.
    + rewrite Dc in *. injection E as <- <-. exists d. split; reflexivity.
    + replace (is_digit x) with false in E by (destruct Hx as [-> | ->]; reflexivity). injection E as <- _. exfalso. destruct Hx as [-> | ->]; destruct Hp as [Hp|Hp]; discriminate Hp.
Qed.
Lemma displays_digits x : forallb is_digit x = true -> displays x x.
Proof.
  induction x as [|c x IH]; intros H; [constructor|]. cbn [forallb] in H. apply andb_true_iff in H as [Hc H]. apply DChar; [|apply IH; exact H]. intros I. cbn in I. repeat (destruct I as [<-|I]; [discriminate Hc|]). destruct I.
Qed.
Lemma take_while_solid s : forallb solid (take_while is_digit s) = true.
Proof. pose proof (take_while_all is_digit s) as H. rewrite forallb_forall in *. intros c I. specialize (H c I). unfold solid. rewrite (digit_solid c H). reflexivity. Qed.
Definition sep (b : builder) : bool := pending_space b && negb (empty_buf b) && (newline_count b =? 0)%nat && negb (last_blank (buf b)).
Lemma snoc_of (x : str) : x <> [] -> exists h y, x = h ++ [y].
Proof. intros H. destruct x as [|y h] using rev_ind; [congruence|]. exists h, y. reflexivity. Qed.
Lemma displays_len o t : displays o t -> t <> [] -> o <> [].
Proof. intros H. destruct H; try discriminate. intros K. congruence. Qed.
(* the first word of a text, at any place *)
Lemma first_char c d b : html_space c = false -> exists e d' o b', d = e ++ d' /\ forallb solid e = true /\ text_go 0 (escape_text (c :: d)) b = text_go 0 (escape_text d') b' /\
  content b' = content b ++ spc (sep b) ++ o /\ displays o (c :: e) /\ mid b' /\ pending_space b' = false.
Proof.
  intros Hc. assert (Hc' : solid c = true) by (unfold solid; rewrite Hc; reflexivity). pose proof (displays_one c (space_not c Hc)) as Dc.
  set (buf1 := if sep b then [32] :: buf b else buf b).
  assert (P : forall x, x <> [] -> forallb solid x = true -> let b' := Builder (quote_depth b) (x :: buf1) (leading_space b) 0 false in content b' = content b ++ spc (sep b) ++ x /\ mid b').
  { intros x Hx Sx. cbv zeta. split.
    - unfold content, buf1. cbn [buf rev]. destruct (sep b); cbn [rev spc app]; rewrite !concat_app; cbn [List.concat]; rewrite ?app_nil_r, <- ?app_assoc; reflexivity.
    - split; [reflexivity|]. destruct (snoc_of x Hx) as (h & y & ->). exists h, y, buf1. split; [reflexivity|]. rewrite forallb_app in Sx. apply andb_true_iff in Sx as [_ Sx]. cbn [forallb] in Sx. unfold solid in Sx. destruct (html_space y); [discriminate Sx|reflexivity]. }
  (* one character, the rest is in the middle *)
  assert (Plain : exists o b', text_go 0 (escape_text d) b' = (match escape_char c with x :: y => text_go 0 (y ++ escape_text d) (Builder (quote_depth b) ([x] :: buf1) (leading_space b) 0 false) | [] => b end) /\
     content b' = content b ++ spc (sep b) ++ o /\ displays o [c] /\ mid b' /\ pending_space b' = false).
  { destruct (escape_solid c Hc) as [S1 S2]. destruct (escape_char c) as [|x y] eqn:Ex; [congruence|]. cbn [forallb] in S1. apply andb_true_iff in S1 as [Sx Sy]. destruct (P [x] ltac:(discriminate) ltac:(cbn [forallb]; rewrite Sx; reflexivity)) as [P1 P2]. destruct y as [|y0 y].
    - exists [x], (Builder (quote_depth b) ([x] :: buf1) (leading_space b) 0 false). split; [reflexivity|]. split; [exact P1|]. split; [exact Dc|]. split; [exact P2|reflexivity].
    - destruct (mid_chars (y0 :: y) (escape_text d) _ P2 Sy ltac:(discriminate)) as (b' & K1 & K2 & K3 & K4). exists (x :: y0 :: y), b'. split; [symmetry; exact K1|]. split; [|split; [exact Dc|split; assumption]]. rewrite K2, P1. cbn [pending_space spc app]. rewrite <- !app_assoc. reflexivity. }
  assert (Escaped : escapable c = true -> escape_char c = [c] -> exists e d' o b', d = e ++ d' /\ forallb solid e = true /\
     text_go 0 (escape_text d) (Builder (quote_depth b) ([92; c] :: buf1) (leading_space b) 0 false) = text_go 0 (escape_text d') b' /\
     content b' = content b ++ spc (sep b) ++ o /\ displays o (c :: e) /\ mid b' /\ pending_space b' = false).
  { intros Hp _. destruct (P [92; c] ltac:(discriminate) ltac:(cbn [forallb]; rewrite Hc'; reflexivity)) as [P1 P2]. exists [], d, [92; c], (Builder (quote_depth b) ([92; c] :: buf1) (leading_space b) 0 false). repeat (split; [first [reflexivity|exact P1]|]). split; [apply DEscaped; [exact Hp|constructor]|split; [exact P2|reflexivity]]. }
  change (escape_text (c :: d)) with (escape_char c ++ escape_text d). destruct Plain as (o & b1 & K1 & K2 & K3 & K4 & K5).
  assert (Done : forall z, z = (match escape_char c with x :: y => text_go 0 (y ++ escape_text d) (Builder (quote_depth b) ([x] :: buf1) (leading_space b) 0 false) | [] => b end) -> exists e d' o b', d = e ++ d' /\ forallb solid e = true /\ z = text_go 0 (escape_text d') b' /\
     content b' = content b ++ spc (sep b) ++ o /\ displays o (c :: e) /\ mid b' /\ pending_space b' = false).
  { intros z ->. exists [], d, o, b1. split; [reflexivity|]. split; [reflexivity|]. split; [symmetry; exact K1|]. repeat (split; [assumption|]). assumption. }
  destruct (escape_head c) as [Ec|(x & y & Ec & Hx)].
  - rewrite Ec in Done |- *. cbn [app] in Done |- *. cbn [text_go]. rewrite Hc. fold (sep b). fold buf1. destruct ((match buf1 with [] => true | _ => false end) || (0 <? newline_count b)%nat); [|apply Done; reflexivity]. cbn [escape_line_start].
    assert (Mk : forall k (f : bool) R, escapable k = true -> (forall e, e = (if f then Some ([92; k], 1%nat) else None) -> c = k -> exists e1 d' o b', d = e1 ++ d' /\ forallb solid e1 = true /\ match e with Some (r, n) => text_go (n - 1) (escape_text d) (Builder (quote_depth b) (r :: buf1) (leading_space b) 0 false) | None => text_go 0 (escape_text d) (Builder (quote_depth b) ([c] :: buf1) (leading_space b) 0 false) end = text_go 0 (escape_text d') b' /\ content b' = content b ++ spc (sep b) ++ o /\ displays o (c :: e1) /\ mid b' /\ pending_space b' = false) \/ R).
    { intros k f R Hk. left. intros e -> <-. destruct f; [exact (Escaped Hk Ec)|apply Done; reflexivity]. }
    destruct (N.eqb_spec c 35) as [E|_]; [destruct (Mk 35 ((match escape_text d with [] => true | _ => false end) || next_blank (escape_text d)) False eq_refl) as [K|[]]; exact (K _ eq_refl E)|].
    destruct (N.eqb_spec c 62) as [E|_]; [destruct (Mk 62 true False eq_refl) as [K|[]]; exact (K _ eq_refl E)|].
    destruct (N.eqb_spec c 45) as [E|_]; [destruct (Mk 45 (next_blank (escape_text d) || thematic_line (c :: escape_text d) 45 3) False eq_refl) as [K|[]]; exact (K _ eq_refl E)|].
    destruct (N.eqb_spec c 43) as [E|_]; [destruct (Mk 43 (next_blank (escape_text d)) False eq_refl) as [K|[]]; exact (K _ eq_refl E)|].
    destruct (N.eqb_spec c 61) as [E|_]; [destruct (Mk 61 (thematic_line (c :: escape_text d) 61 1) False eq_refl) as [K|[]]; exact (K _ eq_refl E)|].
    destruct (N.eqb_spec c 126) as [E|_]; [destruct (Mk 126 (starts (u "~~~") (c :: escape_text d)) False eq_refl) as [K|[]]; exact (K _ eq_refl E)|].
    destruct (N.eqb_spec c 96) as [E|_]; [destruct (Mk 96 (starts (u "```") (c :: escape_text d)) False eq_refl) as [K|[]]; exact (K _ eq_refl E)|].
    destruct (is_digit c) eqn:Dg; [|apply Done; reflexivity]. destruct (drop_while is_digit (escape_text d)) as [|p q] eqn:Ed; [apply Done; reflexivity|]. destruct (mem p (u ".)") && next_blank q) eqn:Mp; [|apply Done; reflexivity].
    apply andb_true_iff in Mp as [Mp _]. apply StrFacts.mem_In in Mp. assert (Hp : p = 46 \/ p = 41) by (cbn in Mp; destruct Mp as [<-|[<-|[]]]; [left|right]; reflexivity). destruct (digits_split d p q Ed Hp) as (d' & E1 & E2). set (ds := take_while is_digit (escape_text d)) in *.
    assert (Et : escape_text d = (ds ++ [p]) ++ escape_text d') by (rewrite (drop_while_app is_digit (escape_text d)), Ed, <- E2, <- app_assoc; reflexivity).
    assert (Sp : solid p = true) by (destruct Hp as [-> | ->]; reflexivity). assert (Sd : forallb solid ds = true) by apply take_while_solid.
    destruct (P (c :: ds ++ [92; p]) ltac:(discriminate)) as [P1 P2]; [cbn [forallb]; rewrite Hc', forallb_app, Sd; cbn [forallb]; rewrite Sp; reflexivity|].
    exists (ds ++ [p]), d', (c :: ds ++ [92; p]), (Builder (quote_depth b) ((c :: ds ++ [92; p]) :: buf1) (leading_space b) 0 false). split; [rewrite <- app_assoc; exact E1|]. split; [rewrite forallb_app, Sd; cbn [forallb]; rewrite Sp; reflexivity|].
    split; [rewrite Et at 1; replace (List.length ds + 2 - 1)%nat with (List.length (ds ++ [p])) by (rewrite app_length; cbn; lia); apply skip_all|]. split; [exact P1|]. split; [|split; [exact P2|reflexivity]].
    apply (displays_app (c :: ds) (c :: ds)); [apply displays_digits; cbn [forallb]; rewrite Dg; apply take_while_all|]. apply DEscaped; [destruct Hp as [-> | ->]; reflexivity|constructor].
  - rewrite Ec in Done |- *. cbn [app] in Done |- *. assert (Hs : html_space x = false) by (destruct Hx as [-> | ->]; reflexivity). cbn [text_go]. rewrite Hs. fold (sep b). fold buf1.
    replace (escape_line_start (x :: y ++ escape_text d)) with (@None (str * nat)) by (destruct Hx as [-> | ->]; reflexivity). destruct (_ || _); apply Done; reflexivity.
Qed.
Lemma shown_app e d : forallb solid e = true -> shown false (e ++ d) = e ++ shown false d.
Proof. induction e as [|c e IH]; intros H; [reflexivity|]. cbn [forallb] in H. apply andb_true_iff in H as [Hc H]. cbn [app shown]. unfold solid in Hc. destruct (html_space c); [discriminate Hc|]. cbn [spc app]. rewrite IH by exact H. reflexivity. Qed.
(* what a text adds *)
Lemma text_adds d : forall b, exists sp o b', text (escape_text d) b = b' /\ content b' = content b ++ spc sp ++ o /\ displays o (shown false (drop_while html_space d)) /\
  (drop_while html_space d <> [] -> mid b') /\ (drop_while html_space d = [] -> sp = false /\ buf b' = buf b /\ newline_count b' = newline_count b) /\ (content b = [] -> empty_buf b = true -> sp = false).
Proof.
  unfold text. induction d as [|c d IH]; intros b.
  - exists false, [], b. split; [reflexivity|]. cbn [spc app]. rewrite app_nil_r. split; [reflexivity|]. cbn [drop_while shown]. split; [constructor|]. repeat split; congruence.
  - destruct (html_space c) eqn:Hc.
    + change (escape_text (c :: d)) with (escape_char c ++ escape_text d). rewrite (escape_space c Hc). cbn [app text_go drop_while]. rewrite Hc. set (b1 := Builder _ _ _ _ true). destruct (IH b1) as (sp & o & b' & K1 & K2 & K3 & K4 & K5 & K6). exists sp, o, b'. split; [exact K1|]. split; [exact K2|]. split; [exact K3|]. split; [exact K4|]. split; [exact K5|]. exact K6.
    + destruct (first_char c d b Hc) as (e & d' & o & b' & -> & Se & K1 & K2 & K3 & K4 & K5). rewrite K1. destruct (mid_text d' b' K4) as (o2 & b2 & L1 & L2 & L3 & L4). cbn [drop_while]. rewrite Hc. exists (sep b), (o ++ o2), b2. split; [exact L1|]. split; [rewrite L2, K2, <- !app_assoc; reflexivity|].
      split; [cbn [shown]; rewrite Hc; cbn [spc app]; rewrite shown_app by exact Se; apply (displays_app o (c :: e)); [exact K3|rewrite K5 in L3; exact L3]|]. split; [intros _; exact L4|]. split; [discriminate|]. intros _ E. unfold sep. rewrite E. cbn [negb]. rewrite !andb_false_r. reflexivity.
Qed.
