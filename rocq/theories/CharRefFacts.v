(* what the character references of the standard look at and consume *)
From Coq Require Import Lia ZifyBool ZifyN ZifyNat.
From Verif Require Import Str StrFacts EntityTable HtmlCharRefSpec EntitiesProofs.
Open Scope list_scope. Open Scope N_scope.

(* the characters a reference can consist of after the & *)
Definition refchar (c : N) : bool := is_alnum_ascii c || (c =? 59) || (c =? 35).
Lemma table_refchars k v : In (k, v) html5_table -> forallb refchar k = true.
Proof.
  assert (H : forallb (fun e : str * str => forallb refchar (fst e)) html5_table = true) by (vm_compute; reflexivity).
  intros I. rewrite forallb_forall in H. exact (H _ I).
Qed.
Lemma longest_in rest e : longest_named rest = Some e -> In e html5_table /\ starts (fst e) rest = true.
Proof.
  unfold longest_named. change (fold_left _ html5_table None) with (fold_left (better rest) html5_table None). intros H.
  destruct (longest_fold rest html5_table None) as (_ & _ & H3). destruct (H3 e H) as [K|K]; [discriminate K|exact K].
Qed.
Lemma starts_len p s : starts p s = true -> (List.length p <= List.length s)%nat /\ firstn (List.length p) s = p.
Proof. intros H. apply starts_spec in H as [t ->]. rewrite app_length, firstn_app, Nat.sub_diag, firstn_all. cbn [firstn]. rewrite app_nil_r. split; [lia|reflexivity]. Qed.
Lemma take_drop p (s : str) : s = (take_while p s ++ drop_while p s)%list.
Proof. induction s as [|c s IH]; [reflexivity|]. cbn [take_while drop_while]. destruct (p c); [cbn [app]; f_equal; exact IH|reflexivity]. Qed.
Lemma take_all p (s : str) : forallb p (take_while p s) = true.
Proof. induction s as [|c s IH]; [reflexivity|]. cbn [take_while]. destruct (p c) eqn:E; [cbn [forallb]; rewrite E; exact IH|reflexivity]. Qed.
Lemma semi_ok (r : str) : forallb refchar (firstn (semi_len r) r) = true /\ (semi_len r <= List.length r)%nat.
Proof. destruct r as [|c r]; cbn [semi_len]; [split; [reflexivity|lia]|]. destruct (N.eqb_spec c 59) as [->|]; cbn [firstn List.length]; split; try reflexivity; lia. Qed.
Lemma digits_ok p r k : (forall c, p c = true -> refchar c = true) -> forallb refchar (firstn k (drop_while p r)) = true -> (k <= List.length (drop_while p r))%nat ->
  (List.length (take_while p r) + k <= List.length r)%nat /\ forallb refchar (firstn (List.length (take_while p r) + k) r) = true.
Proof.
  intros P F L. pose proof (take_drop p r) as E. split.
  - rewrite E at 2. rewrite app_length. lia.
  - rewrite E at 2. rewrite firstn_app, firstn_all2 by lia. replace (List.length (take_while p r) + k - List.length (take_while p r))%nat with k by lia. rewrite forallb_app, F, andb_true_r.
    apply forallb_forall. intros c I. apply P. pose proof (take_all p r) as T. rewrite forallb_forall in T. apply T. exact I.
Qed.
Lemma hex_ref c : is_hex_ascii c = true -> refchar c = true.
Proof. unfold is_hex_ascii, refchar, is_alnum_ascii, is_alpha_ascii, is_upper_ascii, is_lower_ascii, is_digit_ascii. lia. Qed.
Lemma dig_ref c : is_digit_ascii c = true -> refchar c = true.
Proof. unfold refchar, is_alnum_ascii, is_alpha_ascii, is_upper_ascii, is_lower_ascii, is_digit_ascii. lia. Qed.
(* a reference consumes characters of the input, and only those *)
Lemma charref_chars a r v n : charref a r = Some (v, n) -> (n <= List.length r)%nat /\ forallb refchar (firstn n r) = true.
Proof.
  destruct r as [|c r]; [discriminate|]. unfold charref. destruct (N.eqb_spec c 35) as [->|Nc].
  - unfold charref_numeric. destruct r as [|x r]; [cbn; discriminate|]. destruct ((x =? 120) || (x =? 88)) eqn:Ex.
    + cbn [tl]. destruct (take_while is_hex_ascii r) as [|d ds] eqn:E; [discriminate|]. rewrite <- E. intros H.
      assert (n = (2 + List.length (take_while is_hex_ascii r) + semi_len (drop_while is_hex_ascii r))%nat) as -> by congruence.
      destruct (semi_ok (drop_while is_hex_ascii r)) as [S1 S2]. destruct (digits_ok is_hex_ascii r _ hex_ref S1 S2) as [L F]. cbn [Nat.add List.length firstn forallb]. rewrite F. split; [lia|]. assert (X : refchar x = true) by (unfold refchar, is_alnum_ascii, is_alpha_ascii, is_upper_ascii, is_lower_ascii in *; lia). rewrite X. reflexivity.
    + destruct (take_while is_digit_ascii (x :: r)) as [|d ds] eqn:E; [discriminate|]. rewrite <- E. intros H.
      assert (n = (1 + List.length (take_while is_digit_ascii (x :: r)) + semi_len (drop_while is_digit_ascii (x :: r)))%nat) as -> by congruence.
      destruct (semi_ok (drop_while is_digit_ascii (x :: r))) as [S1 S2]. destruct (digits_ok is_digit_ascii (x :: r) _ dig_ref S1 S2) as [L F]. remember (x :: r) as xr. cbn [Nat.add List.length firstn forallb]. rewrite F. split; [lia|reflexivity].
  - unfold charref_named. destruct (longest_named (c :: r)) as [[k w]|] eqn:E; [|discriminate]. apply longest_in in E as [I ST]. cbn [fst] in ST. apply starts_len in ST as [L F].
    intros H. destruct (a && _ && _) in H; [discriminate H|]. assert (n = List.length k) as -> by congruence. split; [exact L|]. rewrite F. exact (table_refchars _ _ I).
Qed.

(* a character that is in no reference, and is not =, cuts off what follows *)
Lemma starts_cut k x rest : ~ In x k -> forall t, starts k (t ++ x :: rest) = starts k t.
Proof.
  induction k as [|y k IH]; intros Nx t; [destruct t; reflexivity|]. destruct t as [|c t].
  - cbn [app starts]. destruct (N.eqb_spec y x) as [->|]; [destruct Nx; left; reflexivity|reflexivity].
  - cbn [app starts]. rewrite IH; [reflexivity|]. intros K. apply Nx. right. exact K.
Qed.
Lemma fold_ext {A B} (f g : A -> B -> A) l : (forall a b, In b l -> f a b = g a b) -> forall a, fold_left f l a = fold_left g l a.
Proof. induction l as [|b l IH]; intros H a; [reflexivity|]. cbn [fold_left]. rewrite H by (left; reflexivity). apply IH. intros a' b' I. apply H. right. exact I. Qed.
Lemma longest_cut x rest t : refchar x = false -> longest_named (t ++ x :: rest) = longest_named t.
Proof.
  intros Hx. unfold longest_named. apply fold_ext. intros best [k v] I. cbn [fst]. rewrite starts_cut; [reflexivity|]. intros K. pose proof (table_refchars _ _ I) as T. rewrite forallb_forall in T. rewrite (T _ K) in Hx. discriminate Hx.
Qed.
Lemma take_cut p x rest : p x = false -> forall t, take_while p (t ++ x :: rest) = take_while p t.
Proof. intros H. induction t as [|c t IH]; cbn [app take_while]; [rewrite H; reflexivity|]. rewrite IH. reflexivity. Qed.
Lemma drop_cut p x rest : p x = false -> forall t, drop_while p (t ++ x :: rest) = (drop_while p t ++ x :: rest)%list.
Proof. intros H. induction t as [|c t IH]; cbn [app drop_while]; [rewrite H; reflexivity|]. destruct (p c); [exact IH|reflexivity]. Qed.
Lemma semi_cut x rest t : x <> 59 -> semi_len (t ++ x :: rest) = semi_len t.
Proof. intros H. destruct t as [|c t]; [cbn [app semi_len]; replace (x =? 59) with false by lia; reflexivity|reflexivity]. Qed.
Lemma charref_cut a t x rest : refchar x = false -> x <> 61 -> charref a (t ++ x :: rest) = charref a t.
Proof.
  intros Hx N61. destruct t as [|c t].
  - cbn [app]. unfold charref. destruct (N.eqb_spec x 35) as [->|N35]; [discriminate Hx|]. unfold charref_named. pose proof (longest_cut x rest [] Hx) as E. cbn [app] in E. rewrite E. destruct (longest_named []) as [[k v]|] eqn:E2; [|reflexivity].
    apply longest_in in E2 as [I ST]. apply starts_len in ST as [L _]. cbn [fst List.length] in L. destruct k; [|cbn in L; lia]. exfalso. clear - I. assert (H : forallb (fun e : str * str => negb (str_eqb (fst e) [])) html5_table = true) by (vm_compute; reflexivity). rewrite forallb_forall in H. specialize (H _ I). discriminate H.
  - cbn [app]. unfold charref. destruct (N.eqb_spec c 35) as [->|Nc].
    + unfold charref_numeric. assert (Hh : is_hex_ascii x = false) by (destruct (is_hex_ascii x) eqn:E; [rewrite (hex_ref x E) in Hx; discriminate Hx|reflexivity]). assert (Hd : is_digit_ascii x = false) by (destruct (is_digit_ascii x) eqn:E; [rewrite (dig_ref x E) in Hx; discriminate Hx|reflexivity]). assert (N59 : x <> 59) by (intros ->; discriminate Hx).
      destruct t as [|y t].
      * cbn [app tl]. replace ((x =? 120) || (x =? 88)) with false by (unfold refchar, is_alnum_ascii, is_alpha_ascii, is_upper_ascii, is_lower_ascii in Hx; lia). cbn [take_while]. rewrite Hd. reflexivity.
      * cbn [app tl]. destruct ((y =? 120) || (y =? 88)).
        -- rewrite take_cut, drop_cut, semi_cut by assumption. reflexivity.
        -- change (y :: t ++ x :: rest)%list with ((y :: t) ++ x :: rest)%list. rewrite take_cut, drop_cut, semi_cut by assumption. reflexivity.
    + change (c :: t ++ x :: rest)%list with ((c :: t) ++ x :: rest)%list. unfold charref_named. rewrite longest_cut by exact Hx. destruct (longest_named (c :: t)) as [[k v]|] eqn:E; [|reflexivity].
      apply longest_in in E as [I ST]. apply starts_len in ST as [L _]. cbn [fst] in L. destruct (Nat.eq_dec (List.length k) (List.length (c :: t))) as [Q|Q].
      * rewrite Q. rewrite nth_error_app2, Nat.sub_diag by lia. cbn [nth_error]. replace (nth_error (c :: t) (List.length (c :: t))) with (@None N) by (symmetry; apply nth_error_None; lia). replace ((x =? 61) || is_alnum_ascii x) with false; [reflexivity|]. unfold refchar in Hx. destruct (is_alnum_ascii x); [discriminate Hx|]. lia.
      * rewrite nth_error_app1 by lia. reflexivity.
Qed.
