(* Proofs: the parser gives the selector that the grammar of SelTextSpec assigns to a text. *)
From Verif Require Import Str StrFacts SerializerModel SanModel SanFacts SanTreeProofs DomModel DomSpec UrlListProofs SelModel SelSpec SelNodeProofs SelParseProofs SelFinal SelTextSpec.
From Coq Require Import Lia ZArith ZifyBool ZifyN ZifyNat.
Open Scope nat_scope.
Notation lim := default_limits.

Lemma ident_name c : ident_char c = name_char c.
Proof.
  unfold ident_char, name_char, name_start. destruct (127 <? c)%N eqn:E; [rewrite !orb_true_r; reflexivity|]. assert (Hc : (c < 128)%N) by lia.
  pose proof (ascii_check (fun c => Bool.eqb ((65 <=? c) && (c <=? 90) || (97 <=? c) && (c <=? 122) || (48 <=? c) && (c <=? 57) || (c =? 95) || (c =? 45) || false) ((is_alpha c || (c =? 95) || (c =? 45) || false) || is_digit c))%N
    ltac:(vm_compute; reflexivity) c Hc) as G. cbv beta in G. apply Bool.eqb_prop in G. exact G.
Qed.
Lemma ident_names n : ident n -> n <> [] /\ forallb name_char n = true.
Proof. intros [H1 H2]. split; [exact H1|]. rewrite forallb_forall in *. intros c Hc. rewrite <- ident_name. auto. Qed.
Lemma tag_start n : tag_name n -> exists c t, n = c :: t /\ name_start c = true.
Proof.
  intros [I H]. destruct (ident_names n I) as [_ H2]. destruct n as [|c t]; [destruct H|]. exists c, t. split; [reflexivity|]. cbn [forallb] in H2. apply andb_true_iff in H2. destruct H2 as [H2 _].
  destruct (N.ltb_spec c 128) as [L | L].
  - pose proof (ascii_check (fun c => implb (name_char c) (is_digit_ascii c || name_start c)) ltac:(vm_compute; reflexivity) c L) as G. cbv beta in G. rewrite H2, H in G. exact G.
  - unfold name_start. assert ((127 <? c)%N = true) as -> by lia. apply orb_true_r.
Qed.

(* ---- scanning ---- *)
Lemma take_app f (a b : str) : forallb f a = true -> match b with [] => True | c :: _ => f c = false end -> take_while f (a ++ b) = a /\ drop_while f (a ++ b) = b.
Proof.
  induction a as [|c a IH]; cbn [forallb app take_while drop_while]; intros H Hb.
  - destruct b as [|c b]; [split; reflexivity|]. cbn [take_while drop_while]. rewrite Hb. split; reflexivity.
  - apply andb_true_iff in H. destruct H as [H1 H2]. rewrite H1. destruct (IH H2 Hb) as [-> ->]. split; reflexivity.
Qed.
Definition stops (rest : str) : Prop := match rest with [] => True | c :: _ => name_char c = false /\ c <> 40%N end.
Lemma read_name_app n rest : forallb name_char n = true -> stops rest -> read_name (n ++ rest) = (n, rest).
Proof. intros H S. unfold read_name. destruct (take_app name_char n rest H) as [-> ->]; [destruct rest; [exact I|apply S]|reflexivity]. Qed.
Lemma read_name_to n c rest : forallb name_char n = true -> name_char c = false -> read_name (n ++ c :: rest) = (n, c :: rest).
Proof. intros H S. unfold read_name. destruct (take_app name_char n (c :: rest) H S) as [-> ->]. reflexivity. Qed.
Lemma skip_blank w s : blank w -> match s with [] => True | c :: _ => is_html_space c = false end -> skip_ws (w ++ s) = s.
Proof. intros H S. unfold skip_ws. apply (take_app is_html_space w s H S). Qed.
Lemma skip_none s : match s with [] => True | c :: _ => is_html_space c = false end -> skip_ws s = s.
Proof. intros S. exact (skip_blank [] s eq_refl S). Qed.
Lemma name_not_space c : name_char c = true -> is_html_space c = false.
Proof.
  intros H. destruct (N.ltb_spec c 128) as [L | L].
  - pose proof (ascii_check (fun c => implb (name_char c) (negb (is_html_space c))) ltac:(vm_compute; reflexivity) c L) as G. cbv beta in G. rewrite H in G. apply negb_true_iff in G. exact G.
  - unfold is_html_space. lia.
Qed.
Lemma space_not_name c : is_html_space c = true -> name_char c = false.
Proof. intros H. destruct (name_char c) eqn:Q; [|reflexivity]. apply name_not_space in Q. congruence. Qed.
Lemma html_space_space c : is_html_space c = true -> is_space c = true.
Proof. intros H. assert (L : (c < 128)%N) by (unfold is_html_space in H; lia). pose proof (ascii_check (fun c => implb (is_html_space c) (is_space c)) ltac:(vm_compute; reflexivity) c L) as G. cbv beta in G. rewrite H in G. exact G. Qed.
Lemma read_arg_ok rest s : forall k, balanced_from k s = true -> read_arg (S k) (s ++ 41%N :: rest) = (s, 41%N :: rest).
Proof.
  induction s as [|c s IH]; intros k H; cbn [balanced_from] in H; cbn [app read_arg].
  - apply Nat.eqb_eq in H. subst k. reflexivity.
  - destruct (c =? 40)%N; [rewrite (IH _ H); reflexivity|]. destruct (c =? 41)%N; [|rewrite (IH _ H); reflexivity].
    destruct k as [|o]; [discriminate H|]. rewrite (IH _ H). reflexivity.
Qed.
Lemma strip_first a c t : strip a = a -> a = c :: t -> is_space c = false.
Proof.
  intros S E. subst a. destruct (is_space c) eqn:Q; [|reflexivity]. exfalso. unfold strip, strip_by, lstrip_by in S. cbn [drop_while] in S. rewrite Q in S.
  assert (L : List.length (rstrip_by is_space (drop_while is_space t)) <= List.length t).
  { unfold rstrip_by. rewrite rev_length. etransitivity; [apply drop_len|]. rewrite rev_length. apply drop_len. }
  rewrite S in L. cbn [List.length] in L. lia.
Qed.
Lemma quoted_ok q v t : quoted_text q v t -> forall rest, q <> 92%N -> read_string q (t ++ q :: rest) = Some (v, rest).
Proof.
  intros H rest N. induction H as [|c v t H1 H2 H IH|c v t H IH]; cbn [app read_string].
  - rewrite N.eqb_refl. reflexivity.
  - apply N.eqb_neq in H1, H2. rewrite H1, H2, IH. reflexivity.
  - assert ((92 =? q)%N = false) as -> by (apply N.eqb_neq; congruence). cbn [N.eqb]. rewrite IH. reflexivity.
Qed.

(* ---- the tokenizer, compositionally ---- *)
Definition tz (p a : bool) (s : str) (ts : list tok) : Prop := forall fuel, List.length s < fuel -> tokenize fuel p a s = Some ts.
Definition lead (p a : bool) : list tok := if p && a then [TComb Desc] else [].
Definition firstch (c : N) : Prop := is_html_space c = false /\ comb_of c = None /\ c <> 44%N.
Lemma tz_nil p a : tz p a [] []. Proof. intros [|k] L; [cbn in L; lia|reflexivity]. Qed.
Lemma tz_one p a c t ts r l : firstch c -> tok_one c t = Some (ts, r) -> tz false true r l -> tz p a (c :: t) (lead p a ++ ts ++ l).
Proof.
  intros [F1 [F2 F3]] T R [|k] L; [cbn in L; lia|]. cbn [tokenize]. rewrite F1, F2, T. pose proof (tok_one_len _ _ _ _ T). cbn [List.length] in L. rewrite (R k) by lia.
  assert ((c =? 44)%N = false) as -> by (apply N.eqb_neq; exact F3). cbn [negb]. rewrite andb_true_r. reflexivity.
Qed.
Lemma tz_space p a w s ts : blank w -> w <> [] -> match s with [] => True | c :: _ => is_html_space c = false end -> tz true a s ts -> tz p a (w ++ s) ts.
Proof.
  intros B N S T fuel L. destruct w as [|c w]; [contradiction|]. destruct fuel as [|k]; [cbn in L; lia|]. assert (Bc := B). unfold blank in Bc. cbn [forallb] in Bc. apply andb_true_iff in Bc.
  cbn [app tokenize]. rewrite (proj1 Bc). change (c :: w ++ s)%list with ((c :: w) ++ s)%list. rewrite (skip_blank _ _ B S). apply T. rewrite app_length in L. cbn [List.length] in L. lia.
Qed.
Lemma tz_comb p a c cb w s ts : comb_of c = Some cb -> blank w -> match s with [] => True | c :: _ => is_html_space c = false end -> tz false true s ts -> tz p a (c :: w ++ s) (TComb cb :: ts).
Proof.
  intros C B S T [|k] L; [cbn in L; lia|]. cbn [tokenize]. assert (is_html_space c = false) as -> by (unfold comb_of in C; unfold is_html_space; destruct (c =? 62)%N eqn:?, (c =? 43)%N eqn:?, (c =? 126)%N eqn:?; try discriminate C; lia).
  rewrite C, (skip_blank _ _ B S), (T k); [reflexivity|]. cbn [List.length] in L. rewrite app_length in L. lia.
Qed.
Lemma tz_comma p a w s ts : blank w -> match s with [] => True | c :: _ => is_html_space c = false end -> tz false true s ts -> tz p a (44%N :: w ++ s) (TComma :: ts).
Proof.
  intros B S T [|k] L; [cbn in L; lia|]. cbn [tokenize]. change (is_html_space 44) with false. change (comb_of 44) with (@None comb). cbv iota.
  change (tok_one 44 (w ++ s)) with (Some ([TComma], skip_ws (w ++ s))). rewrite (skip_blank _ _ B S), (T k); [|cbn [List.length] in L; rewrite app_length in L; lia].
  change (44 =? 44)%N with true. rewrite andb_false_r. reflexivity.
Qed.

(* ---- the text of one simple selector ---- *)
Definition head_simple (ts : list tok) : Prop := match ts with (TTag _ | TUniv | TId _ | TClass _ | TAttrStart | TColon) :: _ => True | _ => False end.
Definition not_open (ts : list tok) : Prop := match ts with TOpen :: _ => False | _ => True end.
Definition starts_ok (t : str) : Prop := match t with c :: _ => firstch c | [] => False end.
Definition text_toks (t : str) (toks : list tok) : Prop :=
  starts_ok t /\ head_simple toks /\ forall p a rest ts, stops rest -> tz false true rest ts -> tz p a (t ++ rest) (lead p a ++ toks ++ ts).
Lemma text_one c t toks : firstch c -> head_simple toks -> (forall rest, stops rest -> tok_one c (t ++ rest) = Some (toks, rest)) -> text_toks (c :: t) toks.
Proof. intros F H T. split; [exact F|]. split; [exact H|]. intros p a rest ts S Z. cbn [app]. apply (tz_one p a c _ toks rest ts F (T rest S) Z). Qed.
Lemma tt_univ : text_toks (u "*") [TUniv].
Proof. apply text_one; [repeat split; discriminate|exact I|reflexivity]. Qed.
Lemma tt_id n : ident n -> text_toks (u "#" ++ n) [TId n].
Proof.
  intros H. destruct (ident_names n H) as [H1 H2]. change (u "#" ++ n)%list with (35%N :: n). apply text_one; [repeat split; discriminate|exact I|]. intros rest S. change (tok_one 35 (n ++ rest)) with (let '(m, r) := read_name (n ++ rest) in match m with [] => None | _ => Some ([TId m], r) end).
  rewrite (read_name_app _ _ H2 S). destruct n; [contradiction|reflexivity].
Qed.
Lemma tt_class n : ident n -> text_toks (u "." ++ n) [TClass n].
Proof.
  intros H. destruct (ident_names n H) as [H1 H2]. change (u "." ++ n)%list with (46%N :: n). apply text_one; [repeat split; discriminate|exact I|]. intros rest S. change (tok_one 46 (n ++ rest)) with (let '(m, r) := read_name (n ++ rest) in match m with [] => None | _ => Some ([TClass m], r) end).
  rewrite (read_name_app _ _ H2 S). destruct n; [contradiction|reflexivity].
Qed.
Lemma tt_tag n : tag_name n -> text_toks n [TTag (lower n)].
Proof.
  intros H. destruct (tag_start n H) as [c [t [-> Hc]]]. destruct H as [H _]. destruct (ident_names _ H) as [_ H2]. destruct (name_start_plain c Hc) as (P1 & P2 & P3 & P4 & P5 & P6 & P7 & P8).
  apply text_one; [split; [exact P1|]; split; [exact P2|apply N.eqb_neq; exact P7]|exact I|]. intros rest S. unfold tok_one. rewrite P3, P4, P5, P6, P7, P8, Hc.
  change (c :: t ++ rest)%list with ((c :: t) ++ rest)%list. rewrite (read_name_app _ _ H2 S). reflexivity.
Qed.
Lemma blank_stop w c s : blank w -> name_char c = false -> match (w ++ c :: s)%list with [] => False | d :: _ => name_char d = false end.
Proof. intros B H. destruct w as [|d w]; [exact H|]. unfold blank in B. cbn [forallb] in B. apply andb_true_iff in B. cbn [app]. apply space_not_name. apply B. Qed.
Lemma attr_name w n s : blank w -> ident n -> match s with [] => False | c :: _ => name_char c = false end -> read_name (skip_ws (w ++ n ++ s)) = (n, s).
Proof.
  intros B H S. destruct (ident_names n H) as [H1 H2]. rewrite (skip_blank w (n ++ s) B).
  - destruct s as [|c s]; [destruct S|]. apply read_name_to; assumption.
  - destruct n as [|c n]; [contradiction|]. cbn [app forallb] in *. apply andb_true_iff in H2. apply name_not_space. apply H2.
Qed.
Lemma tt_attr n w w' : ident n -> blank w -> blank w' -> text_toks (u "[" ++ w ++ n ++ w' ++ u "]") [TAttrStart; TTag n; TAttrEnd].
Proof.
  intros H B B'. match goal with |- text_toks (u "[" ++ ?x) _ => change (u "[" ++ x)%list with (91%N :: x) end. apply text_one; [repeat split; discriminate|exact I|]. intros rest S. change (tok_one 91) with tok_attr. unfold tok_attr. rewrite <- !app_assoc.
  change (u "]" ++ rest)%list with (93%N :: rest). rewrite (attr_name w n (w' ++ 93%N :: rest) B H) by (pose proof (blank_stop w' 93 rest B' eq_refl) as Q; destruct (w' ++ 93%N :: rest)%list; exact Q).
  rewrite (skip_blank w' (93%N :: rest) B' eq_refl). destruct n; [destruct H as [H _]; contradiction|reflexivity].
Qed.
Lemma op_text_read o s : read_op (op_text o ++ s) = Some (o, s). Proof. destruct o; reflexivity. Qed.
Lemma op_first o : exists c t, op_text o = c :: t /\ is_html_space c = false /\ name_char c = false /\ (c =? 93)%N = false.
Proof. destruct o; do 2 eexists; (split; [reflexivity|]); repeat split; vm_compute; reflexivity. Qed.
Lemma tt_attr_op n o v t w1 w2 w3 w4 : ident n -> value_text v t -> blank w1 -> blank w2 -> blank w3 -> blank w4 ->
  text_toks (u "[" ++ w1 ++ n ++ w2 ++ op_text o ++ w3 ++ t ++ w4 ++ u "]") [TAttrStart; TTag n; TAttrOp o; TString v; TAttrEnd].
Proof.
  intros H V B1 B2 B3 B4. match goal with |- text_toks (u "[" ++ ?x) _ => change (u "[" ++ x)%list with (91%N :: x) end. apply text_one; [repeat split; discriminate|exact I|]. intros rest S. change (tok_one 91) with tok_attr. unfold tok_attr. rewrite <- !app_assoc.
  change (u "]" ++ rest)%list with (93%N :: rest). destruct (op_first o) as [c [ot [Eo [O1 [O2 O3]]]]].
  rewrite (attr_name w1 n _ B1 H) by (rewrite Eo; pose proof (blank_stop w2 c (ot ++ w3 ++ t ++ w4 ++ 93%N :: rest) B2 O2) as Q; cbn [app]; destruct (w2 ++ c :: ot ++ w3 ++ t ++ w4 ++ 93%N :: rest)%list; exact Q).
  rewrite (skip_blank w2 _ B2) by (rewrite Eo; exact O1).
  assert (E : read_op (op_text o ++ w3 ++ t ++ w4 ++ 93%N :: rest) = Some (o, w3 ++ t ++ w4 ++ 93%N :: rest)%list) by apply op_text_read.
  rewrite Eo in E |- *. cbn [app] in E |- *. rewrite O3, E.
  assert (G : (match skip_ws (w3 ++ t ++ w4 ++ 93%N :: rest) with q :: t0 => if ((q =? 34) || (q =? 39))%N then read_string q t0 else Some (read_unquoted (skip_ws (w3 ++ t ++ w4 ++ 93%N :: rest))) | [] => Some ([], []) end) = Some (v, w4 ++ 93%N :: rest)%list).
  { destruct V as [q v t Q V | v Nv Fv Qv].
    - rewrite <- !app_assoc. rewrite (skip_blank w3 ([q] ++ t ++ [q] ++ w4 ++ 93%N :: rest) B3) by (cbn [app]; destruct Q as [-> | ->]; reflexivity). cbn [app]. assert (((q =? 34) || (q =? 39))%N = true) as -> by (destruct Q as [-> | ->]; reflexivity).
      apply (quoted_ok q v t V). destruct Q as [-> | ->]; discriminate.
    - destruct v as [|x v]; [contradiction|]. destruct (Qv x v eq_refl) as [X1 X2]. assert (Fx := Fv). cbn [forallb] in Fx. apply andb_true_iff in Fx. destruct Fx as [Fx _]. apply negb_true_iff in Fx. apply orb_false_iff in Fx. destruct Fx as [Fx Fy].
      rewrite (skip_blank w3 ((x :: v) ++ w4 ++ 93%N :: rest) B3) by exact Fx. cbn [app]. assert (((x =? 34) || (x =? 39))%N = false) as -> by (apply orb_false_iff; split; apply N.eqb_neq; assumption).
      unfold read_unquoted. destruct (take_app unq_char (x :: v) (w4 ++ 93%N :: rest) Fv) as [T1 T2]; [|cbn [app] in T1, T2; rewrite T1, T2; reflexivity].
      destruct w4 as [|y w4]; [reflexivity|]. unfold blank in B4. cbn [forallb] in B4. apply andb_true_iff in B4. cbn [app]. unfold unq_char. rewrite (proj1 B4). reflexivity. }
  destruct n as [|nc n]; [destruct H as [H _]; contradiction|].
  match goal with |- match ?m with _ => _ end = _ => match type of G with ?m' = _ => change m with m'; rewrite G end end.
  rewrite (skip_blank w4 (93%N :: rest) B4 eq_refl). reflexivity.
Qed.
Lemma tt_pseudo n : ident n -> text_toks (u ":" ++ n) [TColon; TTag n].
Proof.
  intros H. destruct (ident_names n H) as [H1 H2]. match goal with |- text_toks (u ":" ++ ?x) _ => change (u ":" ++ x)%list with (58%N :: x) end. apply text_one; [repeat split; discriminate|exact I|]. intros rest S. change (tok_one 58) with tok_pseudo. unfold tok_pseudo. rewrite (read_name_app _ _ H2 S).
  destruct n; [contradiction|]. destruct rest as [|c r]; [reflexivity|]. assert ((c =? 40)%N = false) as -> by (apply N.eqb_neq; apply S). reflexivity.
Qed.
Lemma tt_pseudo_arg n a : ident n -> argument a -> text_toks (u ":" ++ n ++ u "(" ++ a ++ u ")") [TColon; TTag n; TOpen; TString a; TClose].
Proof.
  intros H [A1 [A2 A3]]. destruct (ident_names n H) as [H1 H2]. match goal with |- text_toks (u ":" ++ ?x) _ => change (u ":" ++ x)%list with (58%N :: x) end. apply text_one; [repeat split; discriminate|exact I|]. intros rest S. change (tok_one 58) with tok_pseudo. unfold tok_pseudo. rewrite <- !app_assoc.
  change (u "(" ++ a ++ u ")" ++ rest)%list with (40%N :: a ++ 41%N :: rest). rewrite (read_name_to n 40 _ H2 eq_refl).
  assert (SK : skip_ws (a ++ 41%N :: rest) = (a ++ 41%N :: rest)%list).
  { apply skip_none. destruct a as [|c t]; [contradiction|]. cbn [app]. destruct (is_html_space c) eqn:Q; [|reflexivity]. apply html_space_space in Q. rewrite (strip_first _ c t A3 eq_refl) in Q. discriminate Q. }
  destruct n as [|nc n]; [contradiction|]. change (40 =? 40)%N with true. cbv iota. rewrite SK, (read_arg_ok rest a 0 A2), A3. destruct a; [contradiction|reflexivity].
Qed.

(* ---- parsing ---- *)
Definition ends (r : list tok) : Prop := match r with [] => True | (TComb _ | TComma) :: _ => True | _ => False end.
Definition cends (r : list tok) : Prop := match r with [] => True | TComma :: _ => True | _ => False end.
Definition stops2 (r : str) : Prop := match r with [] => True | c :: _ => is_html_space c = true \/ c = 44%N end.
Lemma stops2_stops r : stops2 r -> stops r.
Proof. destruct r as [|c r]; [exact id|]. intros [H | ->]; [split; [apply space_not_name; exact H|intros ->; discriminate H]|split; [reflexivity|discriminate]]. Qed.
Lemma cends_ends r : cends r -> ends r. Proof. destruct r as [|[ ] r]; cbn; auto. Qed.
Lemma ends_open r : ends r -> not_open r. Proof. destruct r as [|[ ] r]; cbn; auto. Qed.
Lemma head_open ts r : head_simple ts -> not_open (ts ++ r). Proof. destruct ts as [|[ ] ts]; cbn; auto; contradiction. Qed.
Lemma sig_shown a b : sig_eqb a b = true -> shown a = shown b.
Proof.
  assert (OS : forall x y : option str, opt_eqb str_eqb x y = true -> x = y) by (intros [x|] [y|]; cbn; intros Q; try discriminate Q; [apply str_eqb_iff in Q; congruence|reflexivity]).
  destruct a, b; cbn [sig_eqb shown]; intros H; try discriminate H; try (apply str_eqb_iff in H; congruence); try reflexivity.
  - apply andb_true_iff in H. destruct H as [H1 H2]. apply str_eqb_iff in H1. subst. f_equal. destruct o as [[o v]|], o0 as [[o' v']|]; cbn in H2; try discriminate H2; [|reflexivity].
    apply andb_true_iff in H2. destruct H2 as [H2 H3]. apply str_eqb_iff in H3. subst. destruct o, o'; try discriminate H2; reflexivity.
  - apply andb_true_iff in H. destruct H as [H1 H2]. apply str_eqb_iff in H1. apply OS in H2. congruence.
  - apply OS in H. congruence.
Qed.
Lemma list_eqb_map {A B} (f : A -> A -> bool) (g : A -> B) : (forall a b, f a b = true -> g a = g b) -> forall l m, list_eqb f l m = true -> map g l = map g m.
Proof. intros H. induction l as [|a l IH]; intros [|b m] E; cbn in E; try discriminate E; [reflexivity|]. apply andb_true_iff in E. destruct E as [E1 E2]. cbn [map]. rewrite (H _ _ E1), (IH _ E2). reflexivity. Qed.
Lemma csig_shown a b : csig_eqb a b = true -> shown_complex a = shown_complex b.
Proof.
  apply list_eqb_map. intros [o [i l]] [o' [i' l']] H. cbn [fst snd simples] in *. apply andb_true_iff in H. destruct H as [H1 H2]. f_equal; [|apply (list_eqb_map sig_eqb shown sig_shown); exact H2].
  destruct o as [[ ]|], o' as [[ ]|]; cbn in H1; try discriminate H1; reflexivity.
Qed.
Lemma shown_erase s : shown (erase s) = shown s. Proof. destruct s as [ | | | | | |a [l|]]; reflexivity. Qed.
Lemma shown_erases l : map shown (map erase l) = map shown l. Proof. rewrite map_map. apply map_ext. exact shown_erase. Qed.
Definition erase_part (p : option comb * compound) : option comb * compound := (fst p, erase_compound (snd p)).
Lemma shown_parts c : shown_complex (map erase_part c) = shown_complex c.
Proof. unfold shown_complex. rewrite map_map. apply map_ext. intros [o [i l]]. cbn. rewrite shown_erases. reflexivity. Qed.
Lemma erase_not a l : erase (SNot a (Some l)) = SNot a (Some (erase_selector l)).
Proof. cbn [erase]. unfold erase_selector. do 2 f_equal. apply map_ext. intros c. apply map_ext. intros [o [i ss]]. reflexivity. Qed.

Definition parses_simple (d : nat) (s : simple) (toks : list tok) : Prop :=
  forall room, d <= room -> forall next r, not_open r -> exists s' next', parse_simple (parse_at lim room) (toks ++ r) next = Some (inl (s', r, next')) /\ erase s' = s.
Definition parses_simples (d : nat) (ss : list simple) (toks : list tok) : Prop :=
  forall room, d <= room -> forall acc next r fuel, ends r -> List.length (toks ++ r) < fuel -> NoDup (map shown (acc ++ ss)) -> List.length (acc ++ ss) <= max_simples lim ->
    exists ss' next', parse_compound lim (parse_at lim room) fuel acc (toks ++ r) next = POk (acc ++ ss') r next' /\ map erase ss' = ss.
Definition parses_parts (d : nat) (c : complex) (toks : list tok) : Prop :=
  forall room, d <= room -> forall acc next r fuel, cends r -> List.length (toks ++ r) < fuel -> List.length (acc ++ c) <= max_parts lim ->
    exists c' next', parse_parts lim (parse_at lim room) fuel acc (toks ++ r) next = POk (acc ++ c') r next' /\ map erase_part c' = c.
Definition parses_complex (d : nat) (c : complex) (toks : list tok) : Prop :=
  forall room, d <= room -> forall next r fuel, cends r -> List.length (toks ++ r) < fuel ->
    exists c' next', parse_complex lim (parse_at lim room) fuel (toks ++ r) next = POk c' r next' /\ map erase_part c' = c.
Definition parses_rest (d : nat) (s : selector) (toks : list tok) : Prop :=
  forall room, d <= room -> forall acc next fuel, List.length toks < fuel -> NoDup (map shown_complex (acc ++ s)) -> List.length (acc ++ s) <= max_list_items lim ->
    exists s' next', parse_list lim (parse_at lim room) fuel acc toks next = POk (acc ++ s') [] next' /\ erase_selector s' = s.
Definition P_simple (d : nat) (s : simple) (t : str) : Prop := exists toks, text_toks t toks /\ stops t /\ parses_simple d s toks.
Definition P_simples (d : nat) (ss : list simple) (t : str) : Prop :=
  exists toks, (t = [] /\ toks = [] \/ text_toks t toks) /\ stops t /\ (ss <> [] -> text_toks t toks) /\ parses_simples d ss toks.
Definition P_compound (d : nat) (ss : list simple) (t : str) : Prop := exists toks, text_toks t toks /\ ss <> [] /\ distinct_simples ss /\ parses_simples d ss toks.
Definition P_tail (d : nat) (c : complex) (t : str) : Prop :=
  exists toks, (forall rest ts, stops2 rest -> tz false true rest ts -> tz false true (t ++ rest) (toks ++ ts)) /\ (forall rest, stops2 rest -> stops (t ++ rest)) /\ (forall r, cends r -> ends (toks ++ r)) /\ parses_parts d c toks.
Definition P_complex (d : nat) (c : complex) (t : str) : Prop :=
  exists toks, starts_ok t /\ (forall p a rest ts, stops2 rest -> tz false true rest ts -> tz p a (t ++ rest) (lead p a ++ toks ++ ts)) /\ c <> [] /\ parses_complex d c toks.
Definition P_rest (d : nat) (s : selector) (t : str) : Prop := exists toks, tz false true t toks /\ stops2 t /\ cends toks /\ parses_rest d s toks.
Definition P_selector (d : nat) (s : selector) (t : str) : Prop := forall room, d < room -> forall next, exists s' next', parse_at lim room t next = inl (s', next') /\ erase_selector s' = s.

Scheme simple_text_mind := Minimality for simple_text Sort Prop
with simples_text_mind := Minimality for simples_text Sort Prop
with compound_text_mind := Minimality for compound_text Sort Prop
with tail_text_mind := Minimality for tail_text Sort Prop
with complex_text_mind := Minimality for complex_text Sort Prop
with rest_text_mind := Minimality for rest_text Sort Prop
with selector_text_mind := Minimality for selector_text Sort Prop.

Lemma pseudo_not_not n arg next room : lower n <> u "not" -> mk_pseudo (parse_at lim room) (lower n) arg next = inl (SPseudo (lower n) arg, next).
Proof. intros H. unfold mk_pseudo. destruct (str_eqb (lower n) (u "not")) eqn:Q; [apply str_eqb_iff in Q; contradiction|reflexivity]. Qed.
Lemma stop_char c t : name_char c = false -> c <> 40%N -> stops (c :: t). Proof. intros H1 H2. split; assumption. Qed.
Lemma starts_app t rest : starts_ok t -> match (t ++ rest)%list with [] => True | c :: _ => is_html_space c = false end.
Proof. destruct t as [|c t]; [intros []|]. intros H. apply H. Qed.
Lemma stops_app t rest : stops t -> stops rest -> stops (t ++ rest). Proof. destruct t; [intros _ H; exact H|intros H _; exact H]. Qed.

Lemma P_simples_cons d s t ss t' : P_simple d s t -> P_simples d ss t' -> P_simples d (s :: ss) (t ++ t').
Proof.
  intros [k1 [T1 [S1 P1]]] [k2 [T2 [S2 [_ P2]]]]. assert (T : text_toks (t ++ t') (k1 ++ k2)).
  { destruct T1 as [A1 [B1 C1]]. split; [destruct t; [destruct A1|exact A1]|]. split; [destruct k1 as [|x k1]; [destruct B1|exact B1]|]. intros p a rest ts S Z. rewrite <- !app_assoc. apply C1; [apply stops_app; assumption|].
    destruct T2 as [[-> ->] | [_ [_ C2]]]; [exact Z|]. apply (C2 false true rest ts S Z). }
  exists (k1 ++ k2)%list. split; [right; exact T|]. split; [destruct T1 as [A1 _]; destruct t; [destruct A1|exact S1]|]. split; [intros _; exact T|].
  intros room R acc next r fuel E L ND LN. destruct fuel as [|k]; [lia|]. cbn [parse_compound]. rewrite <- app_assoc.
  assert (NO : not_open (k2 ++ r)) by (destruct T2 as [[_ ->] | [_ [B2 _]]]; [apply ends_open; exact E|apply head_open; exact B2]).
  destruct (P1 room R next (k2 ++ r)%list NO) as [s' [n' [-> Es]]]. 
  assert (N1 : ~ In (shown s) (map shown acc)) by (rewrite map_app in ND; cbn [map] in ND; apply NoDup_remove_2 in ND; intros Q; apply ND; apply in_or_app; left; exact Q).
  assert (existsb (sig_eqb s') acc = false) as ->.
  { destruct (existsb (sig_eqb s') acc) eqn:Q; [|reflexivity]. apply existsb_exists in Q. destruct Q as [y [Q1 Q2]]. apply sig_shown in Q2. exfalso. apply N1. rewrite <- Es, shown_erase, Q2. apply in_map. exact Q1. }
  assert (max_simples lim <=? List.length acc = false) as -> by (apply Nat.leb_gt; rewrite app_length in LN; cbn [List.length] in LN; lia).
  destruct (P2 room R (acc ++ [s'])%list n' r k E) as [ss' [n'' [E2 Ess]]].
  - destruct T1 as [_ [B1 _]]. destruct k1; [destruct B1|]. cbn [app List.length] in L. rewrite !app_length in *. lia.
  - rewrite <- app_assoc. cbn [app]. rewrite map_app in *. cbn [map] in *. rewrite <- Es, shown_erase in ND. exact ND.
  - rewrite app_length in *. cbn [List.length] in *. rewrite app_length. cbn [List.length]. lia.
  - rewrite E2. exists (s' :: ss'), n''. rewrite <- app_assoc. cbn [app map]. rewrite Es, Ess. split; reflexivity.
Qed.
Lemma P_simples_nil d : P_simples d [] [].
Proof.
  exists []. split; [left; split; reflexivity|]. split; [exact I|]. split; [intros Q; contradiction|]. intros room R acc next r fuel E L ND LN. destruct fuel as [|k]; [lia|].
  exists [], next. rewrite app_nil_r. cbn [parse_compound app]. split; [|reflexivity]. destruct r as [|[ ] r]; cbn in E; try contradiction; reflexivity.
Qed.
Lemma P_tag d n : tag_name n -> exists toks, text_toks n toks /\ parses_simple d (STag (lower n)) toks.
Proof. intros H. exists [TTag (lower n)]. split; [apply tt_tag; exact H|]. intros room _ next r _. do 2 eexists. split; reflexivity. Qed.
Lemma P_compound_tag d n ss t : tag_name n -> P_simples d ss t -> distinct_simples (STag (lower n) :: ss) -> P_compound d (STag (lower n) :: ss) (n ++ t).
Proof.
  intros Hn [k2 [T2 [S2 [_ P2]]]] D. destruct (P_tag d n Hn) as [k1 [T1 P1]]. exists (k1 ++ k2)%list.
  split.
  { destruct T1 as [A1 [B1 C1]]. split; [destruct n; [destruct A1|exact A1]|]. split; [destruct k1 as [|x k1]; [destruct B1|exact B1]|]. intros p a rest ts S Z. rewrite <- !app_assoc. apply C1; [apply stops_app; assumption|].
    destruct T2 as [[-> ->] | [_ [_ C2]]]; [exact Z|]. apply (C2 false true rest ts S Z). }
  split; [discriminate|]. split; [exact D|].
  intros room R acc next r fuel E L ND LN. destruct fuel as [|k]; [lia|]. cbn [parse_compound]. rewrite <- app_assoc.
  assert (NO : not_open (k2 ++ r)) by (destruct T2 as [[_ ->] | [_ [B2 _]]]; [apply ends_open; exact E|apply head_open; exact B2]).
  destruct (P1 room R next (k2 ++ r)%list NO) as [s' [n' [-> Es]]].
  assert (N1 : ~ In (shown (STag (lower n))) (map shown acc)) by (rewrite map_app in ND; cbn [map] in ND; apply NoDup_remove_2 in ND; intros Q; apply ND; apply in_or_app; left; exact Q).
  assert (existsb (sig_eqb s') acc = false) as ->.
  { destruct (existsb (sig_eqb s') acc) eqn:Q; [|reflexivity]. apply existsb_exists in Q. destruct Q as [y [Q1 Q2]]. apply sig_shown in Q2. exfalso. apply N1. rewrite <- Es, shown_erase, Q2. apply in_map. exact Q1. }
  assert (max_simples lim <=? List.length acc = false) as -> by (apply Nat.leb_gt; rewrite app_length in LN; cbn [List.length] in LN; lia).
  destruct (P2 room R (acc ++ [s'])%list n' r k E) as [ss' [n'' [E2 Ess]]].
  - destruct T1 as [_ [B1 _]]. destruct k1; [destruct B1|]. cbn [app List.length] in L. rewrite !app_length in *. lia.
  - rewrite <- app_assoc. cbn [app]. rewrite map_app in *. cbn [map] in *. rewrite <- Es, shown_erase in ND. exact ND.
  - rewrite app_length in *. cbn [List.length] in *. rewrite app_length. cbn [List.length]. lia.
  - rewrite E2. exists (s' :: ss'), n''. rewrite <- app_assoc. cbn [app map]. rewrite Es, Ess. split; reflexivity.
Qed.
Lemma compound_parse d ss toks : ss <> [] -> distinct_simples ss -> parses_simples d ss toks -> forall room, d <= room -> forall next r fuel, ends r -> List.length (toks ++ r) < fuel ->
  exists ss' next', parse_compound lim (parse_at lim room) fuel [] (toks ++ r) next = POk ss' r next' /\ ss' <> [] /\ map erase ss' = ss.
Proof.
  intros N [D1 D2] P room R next r fuel E L. destruct (P room R [] next r fuel E L D1 D2) as [ss' [n' [Q1 Q2]]]. exists ss', n'. split; [exact Q1|]. split; [|exact Q2]. intros ->. cbn in Q2. congruence.
Qed.
Lemma P_tail_nil d : P_tail d [] [].
Proof.
  exists []. split; [intros rest ts _ Z; exact Z|]. split; [intros rest; apply stops2_stops|]. split; [intros r; apply cends_ends|]. intros room R acc next r fuel E L LN. destruct fuel as [|k]; [lia|].
  exists [], next. rewrite app_nil_r. cbn [app parse_parts]. split; [|reflexivity]. destruct r as [|[ ] r]; cbn in E; try contradiction; reflexivity.
Qed.
Lemma comb_toks cb w t toks rest ts : comb_text cb w -> text_toks t toks -> stops rest -> tz false true rest ts -> tz false true (w ++ t ++ rest) (TComb cb :: toks ++ ts).
Proof.
  intros C [A [B T]] S Z. assert (SA := starts_app t rest A).
  assert (G : forall c k w w', comb_of c = Some k -> blank w -> blank w' -> tz false true ((w ++ c :: w') ++ t ++ rest) (TComb k :: toks ++ ts)).
  { intros c k w0 w' Hc B1 B2. rewrite <- app_assoc. cbn [app]. assert (Q : forall p, tz p true (c :: w' ++ t ++ rest) (TComb k :: toks ++ ts)) by (intros p; apply tz_comb; [exact Hc|exact B2|exact SA|exact (T false true rest ts S Z)]).
    destruct w0 as [|x w0]; [apply Q|]. apply tz_space; [exact B1|discriminate| |apply Q]. unfold comb_of in Hc. unfold is_html_space. destruct (c =? 62)%N eqn:?, (c =? 43)%N eqn:?, (c =? 126)%N eqn:?; try discriminate Hc; lia. }
  destruct C as [w B1 N | w w' B1 B2 | w w' B1 B2 | w w' B1 B2]; [|apply (G 62%N); [reflexivity|assumption|assumption]|apply (G 43%N); [reflexivity|assumption|assumption]|apply (G 126%N); [reflexivity|assumption|assumption]].
  apply tz_space; [exact B1|exact N|exact SA|exact (T true true rest ts S Z)].
Qed.
Lemma comb_stops cb w s : comb_text cb w -> stops (w ++ s).
Proof.
  assert (B : forall w x, blank w -> stops x -> stops (w ++ x)) by (intros w0 x Hb Hs; destruct w0 as [|c w0]; [exact Hs|]; unfold blank in Hb; cbn [forallb] in Hb; apply andb_true_iff in Hb; split; [apply space_not_name; apply Hb|intros ->; destruct Hb as [Hb _]; discriminate Hb]).
  intros [w0 B1 N | w0 w' B1 B2 | w0 w' B1 B2 | w0 w' B1 B2]; rewrite <- ?app_assoc.
  - destruct w0 as [|c w0]; [contradiction|]. unfold blank in B1. cbn [forallb] in B1. apply andb_true_iff in B1. split; [apply space_not_name; apply B1|intros ->; destruct B1 as [B1 _]; discriminate B1].
  - apply B; [exact B1|]. split; [reflexivity|discriminate].
  - apply B; [exact B1|]. split; [reflexivity|discriminate].
  - apply B; [exact B1|]. split; [reflexivity|discriminate].
Qed.
Lemma P_tail_cons d cb w ss t c t' : comb_text cb w -> P_compound d ss t -> P_tail d c t' -> P_tail d ((Some cb, Compound 0 ss) :: c) (w ++ t ++ t').
Proof.
  intros C [k1 [T1 [N1 [D1 P1]]]] [k2 [Z2 [S2 [E2 P2]]]]. exists (TComb cb :: k1 ++ k2)%list. split; [|split; [|split]].
  - intros rest ts S Z. rewrite <- !app_assoc. cbn [app]. rewrite <- app_assoc. apply comb_toks; [exact C|exact T1|apply S2; exact S|apply Z2; assumption].
  - intros rest S. rewrite <- app_assoc. apply (comb_stops _ _ _ C).
  - intros r _. exact I.
  - intros room R acc next r fuel E L LN. destruct fuel as [|k]; [lia|]. cbn [app]. cbn [app List.length] in L. rewrite <- app_assoc in *. cbn [parse_parts].
    destruct (compound_parse d ss k1 N1 D1 P1 room R next (k2 ++ r)%list (S k) (E2 r E) ltac:(lia)) as [ss' [n' [Q1 [Q2 Q3]]]].
    rewrite Q1. destruct ss' as [|x ss']; [contradiction|].
    assert (max_parts lim <=? List.length acc = false) as -> by (apply Nat.leb_gt; rewrite app_length in LN; cbn [List.length] in LN; lia).
    destruct (P2 room R (acc ++ [(Some cb, Compound n' (x :: ss'))])%list (S n') r k E) as [c' [n'' [Q4 Q5]]].
    + rewrite !app_length in *. lia.
    + rewrite !app_length in *. cbn [List.length] in *. lia.
    + rewrite Q4. exists ((Some cb, Compound n' (x :: ss')) :: c'), n''. rewrite <- app_assoc. cbn [app map]. split; [reflexivity|]. rewrite Q5. unfold erase_part, erase_compound. cbn [fst snd simples]. rewrite Q3. reflexivity.
Qed.
Lemma P_complex_ok d ss t c t' : P_compound d ss t -> P_tail d c t' -> List.length c < max_parts lim -> P_complex d ((None, Compound 0 ss) :: c) (t ++ t').
Proof.
  intros [k1 [T1 [N1 [D1 P1]]]] [k2 [Z2 [S2 [E2 P2]]]] LC. exists (k1 ++ k2)%list. split; [|split; [|split]].
  - destruct T1 as [A1 _]. destruct t; [destruct A1|exact A1].
  - intros p a rest ts S Z. rewrite <- !app_assoc. destruct T1 as [_ [_ C1]]. apply C1; [apply S2; exact S|apply Z2; assumption].
  - discriminate.
  - intros room R next r fuel E L. unfold parse_complex. rewrite <- app_assoc in *.
    destruct (compound_parse d ss k1 N1 D1 P1 room R next (k2 ++ r)%list fuel (E2 r E) L) as [ss' [n' [Q1 [Q2 Q3]]]]. rewrite Q1. destruct ss' as [|x ss']; [contradiction|].
    destruct (P2 room R [(None, Compound n' (x :: ss'))] (S n') r fuel E) as [c' [n'' [Q4 Q5]]].
    + rewrite !app_length in *. lia.
    + cbn [app List.length]. lia.
    + rewrite Q4. exists ((None, Compound n' (x :: ss')) :: c'), n''. cbn [app map]. split; [reflexivity|]. rewrite Q5. unfold erase_part, erase_compound. cbn [fst snd simples]. rewrite Q3. reflexivity.
Qed.
Lemma P_rest_nil d : P_rest d [] [].
Proof.
  exists []. split; [apply tz_nil|]. split; [exact I|]. split; [exact I|]. intros room R acc next fuel L ND LN. destruct fuel as [|k]; [lia|]. exists [], next. rewrite app_nil_r. split; reflexivity.
Qed.
Lemma P_rest_cons d w w' c t s t' : blank w -> blank w' -> P_complex d c t -> P_rest d s t' -> P_rest d (c :: s) (w ++ u "," ++ w' ++ t ++ t').
Proof.
  intros B B' [k1 [A1 [Z1 [NC P1]]]] [k2 [Z2 [S2 [E2 P2]]]]. exists (TComma :: k1 ++ k2)%list. split; [|split; [|split]].
  - assert (Q : forall p, tz p true (u "," ++ w' ++ t ++ t') (TComma :: k1 ++ k2)) by (intros p; apply (tz_comma p true w' (t ++ t') (k1 ++ k2)); [exact B'|apply starts_app; exact A1|exact (Z1 false true t' k2 S2 Z2)]).
    destruct w as [|x w]; [apply Q|]. apply tz_space; [exact B|discriminate|reflexivity|apply Q].
  - destruct w as [|x w]; [right; reflexivity|]. unfold blank in B. cbn [forallb] in B. apply andb_true_iff in B. left. apply B.
  - exact I.
  - intros room R acc next fuel L ND LN. destruct fuel as [|k]; [lia|]. cbn [parse_list]. cbn [List.length] in L.
    destruct (P1 room R next k2 (S k) E2 ltac:(lia)) as [c' [n' [Q1 Q2]]]. rewrite Q1. destruct c' as [|x c']; [cbn in Q2; congruence|]. set (cc := x :: c') in *.
    assert (SH : shown_complex cc = shown_complex c) by (rewrite <- Q2, shown_parts; reflexivity).
    assert (existsb (csig_eqb cc) acc = false) as ->.
    { destruct (existsb (csig_eqb cc) acc) eqn:Q; [|reflexivity]. apply existsb_exists in Q. destruct Q as [y [Q3 Q4]]. apply csig_shown in Q4. exfalso. rewrite map_app in ND. cbn [map] in ND. apply NoDup_remove_2 in ND. apply ND.
      apply in_or_app. left. rewrite <- SH, Q4. apply in_map. exact Q3. }
    assert (max_list_items lim <=? List.length acc = false) as -> by (apply Nat.leb_gt; rewrite app_length in LN; cbn [List.length] in LN; lia).
    destruct (P2 room R (acc ++ [cc])%list n' k) as [s' [n'' [Q4 Q5]]].
    + assert (k1 <> []). { intros ->. specialize (P1 room R 0 [] 5 I ltac:(cbn; lia)). destruct P1 as [z [n0 [P1 P3]]]. cbn in P1. injection P1 as <- <-. cbn in P3. congruence. } destruct k1; [contradiction|]. cbn [app List.length] in L. rewrite app_length in L. lia.
    + rewrite <- app_assoc. cbn [app]. rewrite map_app in *. cbn [map] in *. rewrite SH. exact ND.
    + rewrite !app_length in *. cbn [List.length] in *. lia.
    + exists (cc :: s'), n''. split; [etransitivity; [exact Q4|rewrite <- app_assoc; reflexivity]|]. unfold erase_selector in *. cbn [map]. change (map (fun p => (fst p, erase_compound (snd p))) cc) with (map erase_part cc). rewrite Q2, Q5. reflexivity.
Qed.
Lemma P_selector_ok d c t s t' : P_complex d c t -> P_rest d s t' -> distinct_alternatives (c :: s) -> P_selector d (c :: s) (t ++ t').
Proof.
  intros [k1 [A1 [Z1 [NC P1]]]] [k2 [Z2 [S2 [E2 P2]]]] [D1 D2] room R next. destruct room as [|room]; [lia|]. cbn [parse_at].
  assert (tokens_of (t ++ t') = Some (k1 ++ k2)%list) as -> by (apply (Z1 false false t' k2 S2 Z2); lia).
  unfold parse_tokens. destruct (P1 room ltac:(lia) next k2 (S (List.length (k1 ++ k2))) E2 ltac:(lia)) as [c' [n' [Q1 Q2]]]. rewrite Q1. destruct c' as [|x c']; [cbn in Q2; congruence|]. set (cc := x :: c') in *.
  assert (SH : shown_complex cc = shown_complex c) by (rewrite <- Q2, shown_parts; reflexivity).
  destruct (P2 room ltac:(lia) [cc] n' (S (List.length (k1 ++ k2)))) as [s' [n'' [Q4 Q5]]].
  - rewrite app_length. lia.
  - cbn [app map] in *. rewrite SH. exact D1.
  - exact D2.
  - match goal with |- context [parse_list ?a ?b ?c ?d ?e ?f] => change (parse_list a b c d e f) with (parse_list lim (parse_at lim room) (S (List.length (k1 ++ k2))) [cc] k2 n') end. rewrite Q4. exists (cc :: s'), n''. split; [reflexivity|]. unfold erase_selector in *. cbn [map]. change (map (fun p => (fst p, erase_compound (snd p))) cc) with (map erase_part cc). rewrite Q2, Q5. reflexivity.
Qed.
Lemma text_parses : forall d s t, selector_text d s t -> P_selector d s t.
Proof.
  apply (selector_text_mind P_simple P_simples P_compound P_tail P_complex P_rest P_selector).
  - intros d. exists [TUniv]. split; [apply tt_univ|]. split; [split; [reflexivity|discriminate]|]. intros room _ next r _. do 2 eexists. split; reflexivity.
  - intros d n H. exists [TId n]. split; [apply tt_id; exact H|]. split; [split; [reflexivity|discriminate]|]. intros room _ next r _. do 2 eexists. split; reflexivity.
  - intros d n H. exists [TClass n]. split; [apply tt_class; exact H|]. split; [split; [reflexivity|discriminate]|]. intros room _ next r _. do 2 eexists. split; reflexivity.
  - intros d n w w' H B B'. eexists. split; [apply tt_attr; assumption|]. split; [split; [reflexivity|discriminate]|]. intros room _ next r _. do 2 eexists. split; reflexivity.
  - intros d n o v t w1 w2 w3 w4 H V B1 B2 B3 B4. eexists. split; [apply tt_attr_op; eassumption|]. split; [split; [reflexivity|discriminate]|]. intros room _ next r _. do 2 eexists. split; reflexivity.
  - intros d n H N. eexists. split; [apply tt_pseudo; exact H|]. split; [split; [reflexivity|discriminate]|]. intros room _ next r NO. exists (SPseudo (lower n) None), next. split; [|reflexivity].
    cbn [app parse_simple]. unfold parse_pseudo. rewrite (pseudo_not_not n None next room N). destruct r as [|[ ] r]; try reflexivity. destruct NO.
  - intros d n a H N A. eexists. split; [apply tt_pseudo_arg; assumption|]. split; [split; [reflexivity|discriminate]|]. intros room _ next r NO. exists (SPseudo (lower n) (Some a)), next. split; [|reflexivity].
    cbn [app parse_simple parse_pseudo]. rewrite (pseudo_not_not n (Some a) next room N). reflexivity.
  - intros d n s a H N A _ IH. eexists. split; [apply tt_pseudo_arg; assumption|]. split; [split; [reflexivity|discriminate]|]. intros room R next r NO. destruct (IH room R next) as [s' [n' [Q1 Q2]]].
    exists (SNot (Some a) (Some s')), n'. split; [|rewrite erase_not, Q2; reflexivity]. cbn [app parse_simple parse_pseudo]. rewrite N. unfold mk_pseudo. change (str_eqb (u "not") (u "not")) with true. cbv iota.
    destruct A as [A _]. destruct a as [|x a]; [contradiction|]. rewrite Q1. reflexivity.
  - exact P_simples_nil.
  - intros d s t ss t' _ H1 _ H2. apply P_simples_cons; assumption.
  - intros d n ss t Hn _ H D. apply P_compound_tag; assumption.
  - intros d ss t _ [toks [_ [_ [T P]]]] N D. exists toks. split; [apply T; exact N|]. split; [exact N|]. split; assumption.
  - exact P_tail_nil.
  - intros d cb w ss t c t' C _ H1 _ H2. apply P_tail_cons; assumption.
  - intros d ss t c t' _ H1 _ H2 L. apply P_complex_ok; assumption.
  - exact P_rest_nil.
  - intros d w w' c t s t' B B' _ H1 _ H2. apply P_rest_cons; assumption.
  - intros d c t s t' _ H1 _ H2 D. apply P_selector_ok; assumption.
Qed.
Lemma selector_text_parses d s t : selector_text d s t -> strip t = t -> (N.of_nat (List.length t) <= max_length lim)%N -> d <= max_parse_depth lim ->
  exists s', parse_selector lim t = inl s' /\ erase_selector s' = s.
Proof.
  intros H ST L D. destruct (text_parses d s t H (S (max_parse_depth lim)) ltac:(lia) 0) as [s' [n' [Q1 Q2]]]. exists s'. split; [|exact Q2]. unfold parse_selector. rewrite ST.
  destruct t as [|c t]; [vm_compute in Q1; discriminate Q1|]. assert ((max_length lim <? N.of_nat (List.length (c :: t)))%N = false) as -> by (apply N.ltb_ge; exact L). rewrite Q1. reflexivity.
Qed.
