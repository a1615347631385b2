(* PROOFS: doctypes, from the source text to the quirks mode *)
From Coq Require Import Lia ZifyBool ZifyN ZifyNat.
From Verif Require SanIdemProofs.
From Verif Require Import Str StrFacts LinkModel LinkProofs DoctypeModel DoctypeSpec DoctypeProofs.
Open Scope N_scope.

Lemma lower_c_alow c : lower_c (alow_c c) = lower_c c.
Proof.
  unfold alow_c, is_upper_ascii. destruct ((65 <=? c) && (c <=? 90)) eqn:E; [|reflexivity]. rewrite !lower_c_ascii by lia. unfold alow_c, is_upper_ascii. rewrite E. destruct ((65 <=? c + 32) && (c + 32 <=? 90)) eqn:E2; [lia|reflexivity].
Qed.
Lemma lower_alow s : lower (alow s) = lower s.
Proof. induction s as [|c s IH]; [reflexivity|]. change (lower (alow (c :: s))) with (lower_c (alow_c c) ++ lower (alow s)). rewrite lower_c_alow, IH. reflexivity. Qed.
Definition name_char (c : N) : bool := negb (is_html_space c || (c =? 62)).
Lemma name_ok tail : tail_ok tail -> forall raw k v, clean raw -> t_name k = Some v -> t_public k = None -> t_system k = None -> t_force k = false -> t_force (fst (tokenize Name k (raw ++ tail))) = false ->
  agree (fst (tokenize Name k (raw ++ tail))) (after_name (Some (lower v ++ lower (take_while name_char raw))) (drop_while name_char raw)).
Proof.
  intros T. induction raw as [|c raw IH]; intros k v C V P Sy Fo H.
  - cbn [app take_while drop_while] in *. change (lower []) with (@nil N). rewrite app_nil_r.
    assert (E : tokenize Name k tail = tokenize AfterName k tail) by (destruct T as [->|(r & ->)]; reflexivity). rewrite E in *.
    pose proof (after_name_ok tail T [] k (fun c i => match i with end) P Sy Fo H [] eq_refl) as G. rewrite V in G. exact G.
  - destruct (clean_cons _ _ C) as [(C1 & C2 & C3) C']. cbn [app tokenize take_while drop_while] in *. unfold name_char at 1 3. rewrite (ws_html c C2) in *. destruct (ws c) eqn:Wc.
    + cbn [orb negb]. change (lower []) with (@nil N). rewrite app_nil_r. pose proof (after_name_ok tail T raw k C' P Sy Fo H (c :: raw)) as G. rewrite V in G. apply G. unfold skip_ws. cbn [drop_while]. rewrite (ws_html c C2), Wc. reflexivity.
    + destruct (N.eqb_spec c 62); [contradiction|]. cbn [orb negb].
      assert (Ev : t_name (add_name k c) = Some (v ++ [alow_c c])).
      { unfold add_name. cbn [t_name]. rewrite V. cbn [add]. rewrite fffd_id; [reflexivity|]. unfold alow_c, is_upper_ascii. destruct ((65 <=? c) && (c <=? 90)); lia. }
      specialize (IH (add_name k c) (v ++ [alow_c c]) C' Ev P Sy Fo H). rewrite lower_app in IH. change (lower [alow_c c]) with (lower_c (alow_c c) ++ []) in IH. rewrite app_nil_r, lower_c_alow, <- app_assoc in IH. exact IH.
Qed.
Lemma before_name_ok tail : tail_ok tail -> forall raw, clean raw -> t_force (fst (tokenize BeforeName no_token (raw ++ tail))) = false ->
  exists n, take_while name_char (skip_ws raw) = n /\ n <> [] /\ agree (fst (tokenize BeforeName no_token (raw ++ tail))) (after_name (Some (lower n)) (drop_while name_char (skip_ws raw))).
Proof.
  intros T. induction raw as [|c raw IH]; intros C H.
  - exfalso. cbn [app] in H. destruct T as [->|(r & ->)]; discriminate H.
  - destruct (clean_cons _ _ C) as [(C1 & C2 & C3) C']. unfold skip_ws. cbn [app tokenize drop_while] in *. rewrite (ws_html c C2) in *. destruct (ws c) eqn:Wc; [exact (IH C' H)|].
    destruct (N.eqb_spec c 62); [contradiction|].
    assert (Ev : t_name (add_name no_token c) = Some [alow_c c]).
    { unfold add_name. cbn [t_name no_token add]. rewrite fffd_id; [reflexivity|]. unfold alow_c, is_upper_ascii. destruct ((65 <=? c) && (c <=? 90)); lia. }
    assert (Nc : name_char c = true) by (unfold name_char; rewrite (ws_html c C2), Wc; destruct (N.eqb_spec c 62); [contradiction|reflexivity]).
    exists (c :: take_while name_char raw). cbn [take_while drop_while]. rewrite Nc. split; [reflexivity|]. split; [discriminate|].
    pose proof (name_ok tail T raw (add_name no_token c) [alow_c c] C' Ev eq_refl eq_refl eq_refl H) as G. change (lower [alow_c c]) with (lower_c (alow_c c) ++ []) in G. rewrite app_nil_r, lower_c_alow in G. exact G.
Qed.
(* U+0000 *)
Lemma starts_fffd w s : (forall c, In c w -> 97 <= c <= 122) -> starts w (alow (map fffd s)) = starts w (alow s).
Proof.
  revert s. induction w as [|x w IH]; intros s L; [reflexivity|]. destruct s as [|c s]; [reflexivity|]. cbn [map alow starts]. fold (alow (map fffd s)) (alow s). rewrite IH by (intros y I; apply L; right; exact I). f_equal.
  unfold fffd. destruct (N.eqb_spec c 0) as [->|]; [|reflexivity]. change (alow_c 65533) with 65533. change (alow_c 0) with 0. specialize (L x (or_introl eq_refl)). lia.
Qed.
Lemma ws_fffd c : ws (fffd c) = ws c.
Proof. unfold fffd, ws. destruct (N.eqb_spec c 0) as [->|]; reflexivity. Qed.
Lemma eqb_fffd c k : 0 < k < 65533 -> (fffd c =? k) = (c =? k).
Proof. unfold fffd. intros H. destruct (N.eqb_spec c 0) as [->|]; lia. Qed.
Lemma add_fffd x c : add x (fffd c) = add x c.
Proof. unfold add. assert (fffd (fffd c) = fffd c) as -> by (unfold fffd; destruct (N.eqb_spec c 0) as [->|]; [reflexivity|]; destruct (N.eqb_spec c 0); [contradiction|reflexivity]). reflexivity. Qed.
Lemma add_name_fffd k c : add_name k (fffd c) = add_name k c.
Proof. unfold add_name. f_equal. unfold fffd. destruct (N.eqb_spec c 0) as [->|]; [|reflexivity]. unfold add. reflexivity. Qed.
Definition quote_ok (st : state) : Prop := match st with PublicId q | SystemId q => q = 34 \/ q = 39 | _ => True end.
Lemma letters w : forallb (fun c => (97 <=? c) && (c <=? 122)) w = true -> forall c, In c w -> 97 <= c <= 122.
Proof. rewrite forallb_forall. intros H c I. specialize (H c I). lia. Qed.
Lemma tokenize_fffd s : forall st k, quote_ok st -> fst (tokenize st k (map fffd s)) = fst (tokenize st k s).
Proof.
  induction s as [|c s IH]; intros st k Q; [reflexivity|]. pose proof (starts_fffd (u "public") (c :: s) (letters (u "public") eq_refl)) as P1. pose proof (starts_fffd (u "system") (c :: s) (letters (u "system") eq_refl)) as P2. cbn [map] in *.
  destruct st; cbn [tokenize]; rewrite ?ws_fffd, ?add_fffd, ?add_name_fffd, ?(eqb_fffd c 62), ?(eqb_fffd c 34), ?(eqb_fffd c 39), ?P1, ?P2 by lia;
    repeat match goal with
    | |- context [fffd c =? ?q] => rewrite (eqb_fffd c q) by (destruct Q; subst; lia)
    | |- context [if ?b then _ else _] => match b with ?x =? ?y => destruct (N.eqb_spec x y) | ws ?x => destruct (ws x) | starts _ _ => destruct b | (_ || _) => destruct b eqn:? | (_ <=? _)%nat => destruct b end
    end; try reflexivity; try (apply IH; cbn [quote_ok]; try exact Logic.I; try exact Q; lia).
  all: try (apply IH; destruct public; exact Logic.I).
  all: rewrite fffd_id by lia; apply IH; cbn [quote_ok]; lia.
Qed.
(* newlines *)
Lemma newlines_eq n : forall s, (List.length s <= n)%nat -> replace_char 13 [10] (replace [13; 10] [10] s) = newlines false s.
Proof.
  unfold replace. induction n as [|n IH]; intros s L; [destruct s; [reflexivity|cbn in L; lia]|]. destruct s as [|c s]; [reflexivity|]. cbn [List.length] in L. cbn [newlines]. rewrite andb_false_r.
  destruct (N.eqb_spec c 13) as [->|N0].
  - destruct s as [|d s]; [reflexivity|]. cbn [List.length] in L. destruct (N.eqb_spec d 10) as [->|N1].
    + cbn [replace_go starts N.eqb Pos.eqb andb List.length Nat.sub app newlines]. unfold replace_char at 1. cbn [flat_map N.eqb Pos.eqb app]. fold (replace_char 13 [10] (replace_go [13; 10] [10] 0 s)). rewrite IH by lia. reflexivity.
    + assert (E : replace_go [13; 10] [10] 0 (13 :: d :: s) = 13 :: replace_go [13; 10] [10] 0 (d :: s)).
      { change (replace_go [13; 10] [10] 0 (13 :: d :: s)) with (if starts [13; 10] (13 :: d :: s) then [10] ++ replace_go [13; 10] [10] 1 (d :: s) else 13 :: replace_go [13; 10] [10] 0 (d :: s)). change (starts [13; 10] (13 :: d :: s)) with ((13 =? 13) && ((10 =? d) && true)). rewrite N.eqb_refl, (N.eqb_sym 10 d). destruct (N.eqb_spec d 10); [contradiction|reflexivity]. }
      rewrite E. unfold replace_char at 1. cbn [flat_map N.eqb Pos.eqb app]. fold (replace_char 13 [10] (replace_go [13; 10] [10] 0 (d :: s))). rewrite IH by (cbn [List.length]; lia). f_equal. cbn [newlines]. destruct (N.eqb_spec d 10); [contradiction|]. cbn [andb]. reflexivity.
  - assert (E : replace_go [13; 10] [10] 0 (c :: s) = c :: replace_go [13; 10] [10] 0 s).
    { change (replace_go [13; 10] [10] 0 (c :: s)) with (if starts [13; 10] (c :: s) then [10] ++ replace_go [13; 10] [10] 1 s else c :: replace_go [13; 10] [10] 0 s). cbn [starts]. rewrite N.eqb_sym. destruct (N.eqb_spec c 13); [contradiction|reflexivity]. }
    rewrite E. unfold replace_char at 1. cbn [flat_map]. destruct (N.eqb_spec c 13); [contradiction|]. cbn [app]. fold (replace_char 13 [10] (replace_go [13; 10] [10] 0 s)). rewrite IH by lia. reflexivity.
Qed.
Lemma newlines_app raw t : forall b, newlines b (raw ++ 62 :: t) = newlines b raw ++ 62 :: newlines false t.
Proof. induction raw as [|c raw IH]; intros b; [reflexivity|]. cbn [app newlines]. destruct (c =? 13); [rewrite IH; reflexivity|]. destruct ((c =? 10) && b); rewrite IH; reflexivity. Qed.
Lemma newlines_In s : forall b c, In c (newlines b s) -> (In c s \/ c = 10) /\ c <> 13.
Proof.
  induction s as [|d s IH]; intros b c I; [destruct I|]. cbn [newlines] in I. destruct (N.eqb_spec d 13) as [->|N0].
  - destruct I as [<-|I]; [split; [right; reflexivity|discriminate]|]. destruct (IH _ _ I) as [[J|J] K]; split; auto. left. right. exact J.
  - destruct ((d =? 10) && b); [destruct (IH _ _ I) as [[J|J] K]; split; auto; left; right; exact J|]. destruct I as [<-|I]; [split; [left; left; reflexivity|exact N0]|]. destruct (IH _ _ I) as [[J|J] K]; split; auto. left. right. exact J.
Qed.
Lemma replace0 s : replace_char 0 [65533] s = map fffd s.
Proof. induction s as [|c s IH]; [reflexivity|]. unfold replace_char in *. cbn [flat_map map]. rewrite IH. unfold fffd at 2. destruct (c =? 0); reflexivity. Qed.
Lemma clean_norm raw : ~ In 62 raw -> clean (map fffd (newlines false raw)).
Proof.
  intros H c I. apply in_map_iff in I as (d & <- & I). apply newlines_In in I as [[J| ->] K].
  - unfold fffd. destruct (N.eqb_spec d 0) as [->|]; [lia|]. assert (d <> 62) by congruence. lia.
  - change (fffd 10) with 10. lia.
Qed.
Lemma doctype_of_ok raw tail t2 : tail_ok tail -> newlines false (raw ++ tail) = newlines false raw ++ t2 -> tail_ok t2 -> ~ In 62 raw -> t_force (doctype_token (raw ++ tail)) = false -> agree (doctype_token (raw ++ tail)) (doctype_of raw).
Proof.
  intros T E T2 N0 H. unfold doctype_token in *. rewrite E in *. rewrite <- (tokenize_fffd _ BeforeName no_token Logic.I) in *. rewrite map_app in *.
  assert (T3 : tail_ok (map fffd t2)) by (destruct T2 as [->|(r & ->)]; [left; reflexivity|right; exists (map fffd r); reflexivity]).
  destruct (before_name_ok _ T3 _ (clean_norm raw N0) H) as (n & En & Nn & G). unfold doctype_of. rewrite (newlines_eq (List.length raw)) by lia. rewrite replace0. cbv zeta.
  change (fun c => negb (is_html_space c || (c =? 62))) with name_char. rewrite En. destruct n as [|c n]; [contradiction|]. exact G.
Qed.
Lemma find_none_notin c s : find_char c s = None -> ~ In c s.
Proof. intros H I. revert H. induction s as [|d s IH]; [destruct I|]. cbn [find_char]. destruct (N.eqb_spec d c) as [->|Nd]; [discriminate|]. destruct I as [->|I]; [contradiction|]. destruct (find_char c s); [discriminate|]. intros _. apply IH; [exact I|reflexivity]. Qed.
Lemma find_split c s i : find_char c s = Some i -> s = firstn i s ++ c :: skipn (S i) s /\ ~ In c (firstn i s).
Proof.
  revert i. induction s as [|d s IH]; intros i H; [discriminate H|]. cbn [find_char] in H. destruct (N.eqb_spec d c) as [->|Nd].
  - injection H as <-. split; [reflexivity|intros []].
  - destruct (find_char c s) as [j|]; [|discriminate H]. injection H as <-. destruct (IH j eq_refl) as [A B]. cbn [firstn skipn app]. split; [f_equal; exact A|]. intros [->|I]; [contradiction|exact (B I)].
Qed.
Lemma parse_ok s : t_force (doctype_token s) = false -> agree (doctype_token s) (fst (parse_doctype s)).
Proof.
  intros H. unfold parse_doctype. destruct (find_char 62 s) as [i|] eqn:F; cbn [fst].
  - destruct (find_split _ _ _ F) as [E N0]. pose proof (doctype_of_ok (firstn i s) (62 :: skipn (S i) s) (62 :: newlines false (skipn (S i) s))) as G. rewrite <- E in G. apply G; [right; eexists; reflexivity|rewrite E at 1; apply newlines_app|right; eexists; reflexivity|exact N0|exact H].
  - pose proof (doctype_of_ok s [] []) as G. rewrite !app_nil_r in G. apply G; [left; reflexivity|reflexivity|left; reflexivity|apply find_none_notin; exact F|exact H].
Qed.
(* ---------- quirks ---------- *)
Lemma lower_nil s : lower s = [] -> s = [].
Proof. destruct s as [|c s]; [reflexivity|]. change (lower (c :: s)) with (lower_c c ++ lower s). intros H. apply app_eq_nil in H as [H _]. exfalso. destruct (N.ltb_spec c 128) as [L|L]; [rewrite lower_c_ascii in H by exact L; discriminate H|]. destruct (N.eq_dec c 304) as [->|N1]; [rewrite lower_c_dotted_I in H; discriminate H|]. destruct (N.eq_dec c 8490) as [->|N2]; [rewrite lower_c_kelvin in H; discriminate H|]. destruct (lower_c_nonascii c L N1 N2) as (d & E & _). rewrite E in H. discriminate H. Qed.
Lemma ascii_of p : plain_prefix p = true -> forallb (fun c => c <? 128) p = true.
Proof. unfold plain_prefix. intros H. apply andb_true_iff in H as [H _]. rewrite forallb_forall in *. intros c I. specialize (H c I). apply andb_true_iff in H as [H _]. exact H. Qed.
Lemma lower_eq_plain p s : plain_prefix p = true -> (lower s = p <-> alow s = p).
Proof.
  intros P. split; intros H.
  - assert (ST : starts p (lower s) = true) by (rewrite H; apply starts_spec; exists []; symmetry; apply app_nil_r). destruct (starts_lower_inv p s P ST) as (a & t & -> & La & Ea). rewrite lower_app in H. rewrite (lower_of_alow a) in H by (rewrite Ea; apply ascii_of; exact P). rewrite Ea in H. assert (t = []) as -> by (apply lower_nil; apply (app_inv_head p); rewrite H; symmetry; apply app_nil_r). rewrite app_nil_r. exact Ea.
  - rewrite lower_of_alow; [exact H|]. rewrite H. apply ascii_of. exact P.
Qed.
Lemma starts_lower_plain p s : plain_prefix p = true -> (starts p (lower s) = true <-> exists a t, s = a ++ t /\ alow a = p).
Proof.
  intros P. split.
  - intros H. destruct (starts_lower_inv p s P H) as (a & t & E & _ & Q). exists a, t. split; assumption.
  - intros (a & t & -> & E). apply starts_lower_app; [exact E|apply ascii_of; exact P].
Qed.
Lemma lower_opt_some x s : lower_opt x = Some s -> exists v, x = Some v /\ v <> [] /\ s = lower v.
Proof. destruct x as [[|c v]|]; try discriminate. intros H. exists (c :: v). split; [reflexivity|]. split; [discriminate|]. unfold lower_opt in H. congruence. Qed.
Definition plain_table (l l' : list str) : bool := forallb (fun p => plain_prefix p && (match p with [] => false | _ => true end) && existsb (fun q => str_eqb (alow q) p) l') l && forallb (fun q => in_strs (alow q) l) l'.
Lemma table_l l l' p : plain_table l l' = true -> In p l -> plain_prefix p = true /\ p <> [] /\ exists q, In q l' /\ alow q = p.
Proof.
  unfold plain_table. intros H I. apply andb_true_iff in H as [H _]. rewrite forallb_forall in H. specialize (H p I). apply andb_true_iff in H as [H H3]. apply andb_true_iff in H as [H1 H2]. split; [exact H1|]. split; [intros ->; discriminate H2|]. apply existsb_exists in H3 as (q & J & E). exists q. split; [exact J|]. apply str_eqb_eq. exact E.
Qed.
Lemma table_r l l' q : plain_table l l' = true -> In q l' -> In (alow q) l.
Proof. unfold plain_table. intros H I. apply andb_true_iff in H as [_ H]. rewrite forallb_forall in H. apply in_strs_In. exact (H q I). Qed.
Lemma is_in_spec l l' x : plain_table l l' = true -> (is_in (lower_opt x) l = true <-> exists p q, x = Some p /\ In q l' /\ same p q).
Proof.
  intros T. split.
  - destruct (lower_opt x) as [s|] eqn:E; [|discriminate]. cbn [is_in]. intros H. apply in_strs_In in H. destruct (lower_opt_some _ _ E) as (v & -> & _ & ->). destruct (table_l _ _ _ T H) as (P & _ & q & I & Q). exists v, q. split; [reflexivity|]. split; [exact I|]. unfold same. rewrite Q. apply lower_eq_plain; [exact P|reflexivity].
  - intros (p & q & -> & I & Q). pose proof (table_r _ _ _ T I) as J. destruct (table_l _ _ _ T J) as (P & Ne & _). destruct p as [|c p].
    + exfalso. apply Ne. unfold same in Q. rewrite <- Q. reflexivity.
    + change (is_in (lower_opt (Some (c :: p))) l) with (in_strs (lower (c :: p)) l). apply in_strs_In. replace (lower (c :: p)) with (alow q); [exact J|]. symmetry. apply lower_eq_plain; [exact P|exact Q].
Qed.
Lemma has_prefix_spec l l' x : plain_table l l' = true -> (has_prefix (lower_opt x) l = true <-> exists p q, x = Some p /\ In q l' /\ prefixed q p).
Proof.
  intros T. split.
  - destruct (lower_opt x) as [s|] eqn:E; [|discriminate]. destruct (lower_opt_some _ _ E) as (v & -> & _ & ->). intros H. assert (C : contains_prefix l (lower v) = true) by (unfold has_prefix in H; destruct (lower v); [discriminate H|exact H]). unfold contains_prefix in C. apply existsb_exists in C as (p & I & ST).
    destruct (table_l _ _ _ T I) as (P & _ & q & J & Q). apply (starts_lower_plain p v P) in ST as (a & t & -> & A). exists (a ++ t), q. split; [reflexivity|]. split; [exact J|]. exists a, t. split; [reflexivity|]. unfold same. congruence.
  - intros (p & q & -> & I & a & t & -> & A). unfold same in A. pose proof (table_r _ _ _ T I) as J. destruct (table_l _ _ _ T J) as (P & Ne & _).
    assert (ST : starts (alow q) (lower (a ++ t)) = true) by (apply starts_lower_plain; [exact P|exists a, t; split; [reflexivity|exact A]]).
    destruct (a ++ t) as [|c r] eqn:E; [exfalso; apply Ne; apply app_eq_nil in E as [-> _]; rewrite <- A; reflexivity|]. rewrite <- E in *. change (lower_opt (Some (a ++ t))) with (match a ++ t with [] => None | c :: s => Some (lower (c :: s)) end). rewrite E. cbn [has_prefix]. rewrite <- E.
    destruct (lower (a ++ t)) as [|d z] eqn:E2; [destruct (alow q); [contradiction|discriminate ST]|]. unfold contains_prefix. apply existsb_exists. exists (alow q). split; assumption.
Qed.
Definition silmaril : str := u "+//Silmaril//dtd html Pro v0r11 19970101//".
Definition mode_ok (k : token) (m : quirks) : Prop := (m = Quirks <-> is_quirks k) /\ (m = LimitedQuirks <-> ~ is_quirks k /\ is_limited k).
Lemma table1 : plain_table quirky_public_matches [u "-//W3O//DTD W3 HTML Strict 3.0//EN//"; u "-/W3C/DTD HTML 4.0 Transitional/EN"; u "HTML"] = true.
Proof. vm_compute. reflexivity. Qed.
Lemma table2 : plain_table quirky_system_matches [u "http://www.ibm.com/data/dtd/v11/ibmxhtml1-transitional.dtd"] = true.
Proof. vm_compute. reflexivity. Qed.
Lemma table3 : plain_table quirky_public_prefixes (tl quirky_prefixes) = true.
Proof. vm_compute. reflexivity. Qed.
Lemma table4 : plain_table limited_quirky_public_prefixes [u "-//W3C//DTD XHTML 1.0 Frameset//"; u "-//W3C//DTD XHTML 1.0 Transitional//"] = true.
Proof. vm_compute. reflexivity. Qed.
Lemma table5 : plain_table html4_public_prefixes html4_prefixes = true.
Proof. vm_compute. reflexivity. Qed.
Lemma head_silmaril : quirky_prefixes = silmaril :: tl quirky_prefixes.
Proof. reflexivity. Qed.
Opaque quirky_public_matches quirky_system_matches quirky_public_prefixes limited_quirky_public_prefixes html4_public_prefixes quirky_prefixes html4_prefixes silmaril.
(* no two of the prefixes' families meet, and none of the three exact identifiers starts as a limited one *)
Lemma prefixed_two p q s : prefixed p s -> prefixed q s -> starts (alow p) (alow q) = true \/ starts (alow q) (alow p) = true.
Proof.
  intros (a & t & E & A) (b & r & F & B). unfold same in *. rewrite <- A, <- B. assert (Q : alow a ++ alow t = alow b ++ alow r) by (unfold alow; rewrite <- !map_app; congruence). revert Q. generalize (alow a), (alow b), (alow t), (alow r). clear. intros x. induction x as [|c x IH]; intros y t r Q; [left; reflexivity|]. destruct y as [|d y]; [right; reflexivity|]. cbn [app] in Q. injection Q as -> Q. cbn [starts]. rewrite N.eqb_refl. exact (IH y t r Q).
Qed.
Definition apart (l1 l2 : list str) : bool := forallb (fun p => forallb (fun q => negb (starts (alow p) (alow q)) && negb (starts (alow q) (alow p))) l2) l1.
Lemma apart_spec l1 l2 p q s : apart l1 l2 = true -> In p l1 -> In q l2 -> prefixed p s -> prefixed q s -> False.
Proof.
  unfold apart. intros H I J A B. rewrite forallb_forall in H. specialize (H p I). rewrite forallb_forall in H. specialize (H q J). apply andb_true_iff in H as [H1 H2]. apply negb_true_iff in H1, H2. destruct (prefixed_two _ _ _ A B); congruence.
Qed.
Lemma table_apart : apart [u "-//W3C//DTD XHTML 1.0 Frameset//"; u "-//W3C//DTD XHTML 1.0 Transitional//"] html4_prefixes = true.
Proof. vm_compute. reflexivity. Qed.
Lemma quirks_ok k d : agree k d -> t_force k = false -> (forall n, t_name k = Some n -> alow n = n) -> t_system k <> Some [] -> (forall p, t_public k = Some p -> ~ prefixed silmaril p) -> mode_ok k (quirks_mode d false).
Proof.
  intros (An & Ap & As & Af) Fo Lo Sy Si. unfold quirks_mode. rewrite Af. cbv zeta. rewrite An, Ap, As.
  assert (Hn : is_in (lower_opt (option_map lower (t_name k))) [u "html"] = true <-> t_name k = Some (u "html")).
  { assert (T : plain_table [u "html"] [u "html"] = true) by (vm_compute; reflexivity). rewrite (is_in_spec _ _ _ T). split.
    - intros (p & q & E & [<-|[]] & Q). destruct (t_name k) as [n|] eqn:En; [|discriminate E]. cbn [option_map] in E. assert (p = lower n) as -> by congruence. unfold same in Q. f_equal. rewrite <- (Lo n eq_refl). change (alow (u "html")) with (u "html") in Q. apply (lower_eq_plain (u "html") n eq_refl). apply (lower_eq_plain (u "html") (lower n) eq_refl) in Q. rewrite SanIdemProofs.lower_idem in Q. exact Q.
    - intros ->. exists (u "html"), (u "html"). repeat split. left. reflexivity. }
  pose proof (is_in_spec _ _ (t_public k) table1) as H1. pose proof (is_in_spec _ _ (t_system k) table2) as H2. pose proof (has_prefix_spec _ _ (t_public k) table3) as H3. pose proof (has_prefix_spec _ _ (t_public k) table4) as H4. pose proof (has_prefix_spec _ _ (t_public k) table5) as H5.
  assert (YES : is_quirks k -> mode_ok k Quirks) by (intros Y; split; [split; [intros _; exact Y|reflexivity]|split; [discriminate|intros [A _]; contradiction]]).
  unfold is_quirks in YES. fold (is_quirks k) in YES.
  destruct (is_in (lower_opt (option_map lower (t_name k))) [u "html"]) eqn:B0; cbn [negb].
  2:{ apply YES. right. left. intros E. apply Hn in E. discriminate E. }
  destruct (is_in (lower_opt (t_public k)) quirky_public_matches) eqn:B1.
  { apply YES. right. right. left. apply H1. reflexivity. }
  destruct (is_in (lower_opt (t_system k)) quirky_system_matches) eqn:B2.
  { apply YES. right. right. right. left. destruct (proj1 H2 eq_refl) as (p & q & E & [<-|[]] & Q). exists p. split; assumption. }
  destruct (has_prefix (lower_opt (t_public k)) quirky_public_prefixes) eqn:B3.
  { apply YES. do 4 right. left. destruct (proj1 H3 eq_refl) as (p & q & E & I & Q). exists p, q. split; [exact E|]. split; [|exact Q]. rewrite head_silmaril. right. exact I. }
  assert (NO : is_quirks k -> exists p q, t_system k = None /\ t_public k = Some p /\ In q html4_prefixes /\ prefixed q p).
  { intros [Q|[Q|[Q|[Q|[Q|Q]]]]]; [congruence|exfalso; apply Q; apply Hn; reflexivity|apply H1 in Q; discriminate Q| | |exact Q].
    - destruct Q as (s & E & Q). exfalso. assert (false = true) as X; [|discriminate X]. apply H2. exists s, (u "http://www.ibm.com/data/dtd/v11/ibmxhtml1-transitional.dtd"). split; [exact E|]. split; [left; reflexivity|exact Q].
    - destruct Q as (p & q & E & I & Q). exfalso. rewrite head_silmaril in I. destruct I as [<-|I]; [exact (Si p E Q)|]. assert (false = true) as X; [|discriminate X]. apply H3. exists p, q. repeat split; assumption. }
  destruct (has_prefix (lower_opt (t_public k)) limited_quirky_public_prefixes) eqn:B4.
  { destruct (proj1 H4 eq_refl) as (p & q & E & I & Q).
    assert (NQ : ~ is_quirks k). { intros Y. destruct (NO Y) as (p' & q' & _ & E' & I' & Q'). assert (p' = p) as -> by congruence. exact (apart_spec _ _ _ _ _ table_apart I I' Q Q'). }
    split; [split; [discriminate|intros Y; contradiction]|]. split; [|reflexivity]. intros _. split; [exact NQ|]. left. exists p, q. repeat split; assumption. }
  destruct (has_prefix (lower_opt (t_public k)) html4_public_prefixes) eqn:B5.
  { destruct (proj1 H5 eq_refl) as (p & q & E & I & Q). destruct (t_system k) as [[|c sy]|] eqn:Es; [contradiction| |].
    - unfold lower_opt. assert (NQ : ~ is_quirks k) by (intros Y; destruct (NO Y) as (p' & q' & X & _); discriminate X).
      split; [split; [discriminate|intros Y; contradiction]|]. split; [|reflexivity]. intros _. split; [exact NQ|]. right. exists p, q, (c :: sy). rewrite Es. repeat split; assumption.
    - cbn [lower_opt]. apply YES. do 5 right. exists p, q. rewrite Es. repeat split; assumption. }
  assert (NP : forall p q, t_public k = Some p -> In q html4_prefixes -> prefixed q p -> False).
  { intros p q E I Q. assert (false = true) as X; [|discriminate X]. apply H5. exists p, q. repeat split; assumption. }
  split; [split; [discriminate|]|split; [discriminate|]].
  - intros Y. destruct (NO Y) as (p & q & _ & E & I & Q). destruct (NP p q E I Q).
  - intros [_ [L|L]]; [apply H4 in L; discriminate L|]. destruct L as (p & q & sy & _ & E & I & Q). destruct (NP p q E I Q).
Qed.
(* the tokenizer's names are in lower case *)
Lemma alow_c_idem c : alow_c (alow_c c) = alow_c c.
Proof. unfold alow_c, is_upper_ascii. destruct ((65 <=? c) && (c <=? 90)) eqn:E; [|rewrite E; reflexivity]. destruct ((65 <=? c + 32) && (c + 32 <=? 90)) eqn:E2; [lia|reflexivity]. Qed.
Definition low (k : token) : Prop := forall n, t_name k = Some n -> alow n = n.
Lemma low_add k c : low k -> low (add_name k c).
Proof.
  unfold low, add_name. cbn [t_name]. intros H n E. assert (A : alow_c (fffd (alow_c c)) = fffd (alow_c c)) by (unfold fffd; destruct (alow_c c =? 0); [reflexivity|apply alow_c_idem]).
  destruct (t_name k) as [v|]; cbn [add] in E.
  - assert (n = v ++ [fffd (alow_c c)]) as -> by congruence. unfold alow. rewrite map_app. cbn [map]. rewrite A. f_equal. exact (H v eq_refl).
  - assert (n = [fffd (alow_c c)]) as -> by congruence. unfold alow. cbn [map]. rewrite A. reflexivity.
Qed.
Lemma low_tokenize s : forall st k, low k -> low (fst (tokenize st k s)).
Proof.
  induction s as [|c s IH]; intros st k L; [destruct st; exact L|].
  destruct st; cbn [tokenize]; repeat match goal with |- context [if ?b then _ else _] => destruct b end; cbn [fst]; try exact L; apply IH; try exact L; apply low_add; exact L.
Qed.
Lemma low_token s : low (doctype_token s).
Proof. apply low_tokenize. intros n H. discriminate H. Qed.

(* ---------- where the doctype ends ---------- *)
Definition st_ok (st : state) (n : nat) : Prop := match st with Keyword k _ => (1 <= k <= n)%nat | PublicId q | SystemId q => q <> 62 | _ => True end.
Lemma keyword_long p raw t : List.length p = 6%nat -> forallb (fun c => negb (c =? 62)) p = true -> starts p (alow (raw ++ 62 :: t)) = true -> (6 <= List.length raw)%nat.
Proof.
  intros L P ST. destruct (Nat.le_gt_cases 6 (List.length raw)) as [|G]; [assumption|exfalso]. apply starts_spec in ST as (r & E). unfold alow in E. rewrite map_app in E. cbn [map] in E.
  assert (K : nth_error (p ++ r) (List.length raw) = Some 62) by (rewrite <- E, nth_error_app2; rewrite map_length; [rewrite Nat.sub_diag; reflexivity|lia]).
  rewrite nth_error_app1 in K by lia. apply nth_error_In in K. rewrite forallb_forall in P. specialize (P _ K). discriminate P.
Qed.
Lemma tokenize_end raw t : ~ In 62 raw -> forall st k, st_ok st (List.length raw) -> snd (tokenize st k (raw ++ 62 :: t)) = t.
Proof.
  induction raw as [|c raw IH]; intros N0 st k OK.
  - cbn [app]. destruct st; cbn [tokenize ws]; try reflexivity; cbn [st_ok List.length] in OK; [lia|destruct (N.eqb_spec 62 quote); [congruence|reflexivity]..].
  - assert (Nc : c <> 62) by (intros ->; apply N0; left; reflexivity). assert (N1 : ~ In 62 raw) by (intros I; apply N0; right; exact I). specialize (IH N1). apply N.eqb_neq in Nc.
    cbn [app]. destruct st; cbn [tokenize]; rewrite ?Nc; cbn [st_ok List.length] in OK;
      repeat match goal with
      | |- context [starts (u "public") ?x] => let E := fresh "E" in destruct (starts (u "public") x) eqn:E
      | |- context [starts (u "system") ?x] => let E := fresh "E" in destruct (starts (u "system") x) eqn:E
      | |- context [if ?b then _ else _] => let E := fresh "E" in destruct b eqn:E
      end; try (apply IH; cbn [st_ok]; first [exact Logic.I|exact OK|lia]).
    all: apply IH; cbn [st_ok]; match goal with H : starts ?p (alow (?c :: ?raw ++ 62 :: ?t)) = true |- _ => pose proof (keyword_long p (c :: raw) t eq_refl eq_refl H) as G; cbn [List.length] in G; lia end.
Qed.
Lemma tokenize_open raw : ~ In 62 raw -> forall st k, snd (tokenize st k raw) = [].
Proof.
  induction raw as [|c raw IH]; intros N0 st k; [destruct st; reflexivity|]. assert (Nc : c <> 62) by (intros ->; apply N0; left; reflexivity). assert (N1 : ~ In 62 raw) by (intros I; apply N0; right; exact I). specialize (IH N1). apply N.eqb_neq in Nc.
  destruct st; cbn [tokenize]; rewrite ?Nc; repeat match goal with |- context [if ?b then _ else _] => destruct b end; apply IH.
Qed.
Lemma newlines_notin s : forall b, ~ In 62 s -> ~ In 62 (newlines b s).
Proof.
  induction s as [|c s IH]; intros b N0 I; [destruct I|]. assert (N1 : ~ In 62 s) by (intros J; apply N0; right; exact J). cbn [newlines] in I. destruct (c =? 13); [destruct I as [I|I]; [discriminate I|exact (IH _ N1 I)]|]. destruct ((c =? 10) && b); [exact (IH _ N1 I)|]. destruct I as [->|I]; [apply N0; left; reflexivity|exact (IH _ N1 I)].
Qed.
Lemma extent_ok s : snd (tokenize BeforeName no_token (newlines false s)) = newlines false (snd (parse_doctype s)).
Proof.
  unfold parse_doctype. destruct (find_char 62 s) as [i|] eqn:F; cbn [snd].
  - destruct (find_split _ _ _ F) as [E N0]. rewrite E at 1. rewrite newlines_app. apply tokenize_end; [|exact Logic.I]. apply newlines_notin. exact N0.
  - apply tokenize_open. apply newlines_notin. apply find_none_notin. exact F.
Qed.
