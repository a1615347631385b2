(* Proofs for C69, second part: well-formed states; the parser finds the standard's place *)
From Coq Require Import List Arith Bool String Lia.
From Verif Require Import Str StrFacts.
From Verif Require Import FosterModel FosterSpec FosterProofs1.
Import ListNotations.
Open Scope string_scope. Open Scope list_scope. Open Scope nat_scope.

Definition stops (e : oel) : bool := is "table" e || is "template" e.
Fixpoint housed (l : list oel) : Prop := match l with [] => True | e :: b => (table_part e = true -> existsb stops (e :: b) = true) /\ housed b end.
(* names, and their contents *)
Definition named_right (e : oel) : Prop :=
  (str_eqb (oname e) (u "table") = true -> ohtml e = true) /\ (is "template" e = true <-> ocontent e <> None).
Record wf (t : tree) (l : list oel) : Prop := Wf {
  w_some : l <> [];
  w_ids : forall p j, In j (nods (ks t p)) -> j < List.length t;
  w_open : forall e, In e l -> oid e < List.length t;
  w_content : forall e c, In e l -> ocontent e = Some c -> c < List.length t /\ (forall e', In e' l -> oid e' <> c);
  w_once : NoDup (map oid l);
  w_names : forall e, In e l -> named_right e;
  w_tables : forall e, In e l -> is "table" e = true ->
    exists q, up t (oid e) = Some q /\ count_occ Nat.eq_dec (nods (ks t q)) (oid e) = 1 /\ (forall e', In e' l -> table_part e' = true -> oid e' <> q);
  w_texts : forall e s, In e l -> table_part e = true -> In s (txts (ks t (oid e))) -> s <> [] /\ blank s = true;
  w_housed : housed l
}.

Lemma is_name : forall n e, is n e = true -> oname e = u n /\ ohtml e = true.
Proof. intros n e H. apply andb_prop in H as [H N]. apply str_eqb_eq in N. auto. Qed.
Lemma content_template : forall e c, named_right e -> ocontent e = Some c -> oname e = u "template" /\ ohtml e = true.
Proof. intros e c [_ N] C. apply is_name. apply N. congruence. Qed.
Lemma template_no_part : forall e c, named_right e -> ocontent e = Some c -> table_part e = false.
Proof. intros e c N C. destruct (content_template e c N C) as [E H]. unfold table_part. rewrite E, H. reflexivity. Qed.
Lemma is_table_part : forall e, is "table" e = true -> table_part e = true.
Proof. intros e H. destruct (is_name _ _ H) as [E W]. unfold table_part. rewrite E, W. reflexivity. Qed.
Lemma is_table_content : forall e, named_right e -> is "table" e = true -> ocontent e = None.
Proof. intros e N H. destruct (ocontent e) eqn:C; [|reflexivity]. apply is_table_part in H. rewrite (template_no_part _ _ N C) in H. discriminate H. Qed.
Lemma table_name : forall e, named_right e -> str_eqb (oname e) (u "table") = is "table" e.
Proof. intros e [N _]. unfold is. destruct (str_eqb (oname e) (u "table")) eqn:E; [rewrite N by reflexivity; reflexivity|rewrite andb_false_r; reflexivity]. Qed.

Lemma part_eq : forall e l, named_right e -> in_strs (parent_name (e :: l)) targets && parent_html (e :: l) = table_part e.
Proof.
  intros e l N. cbn [parent_name parent_html]. destruct (ocontent e) eqn:C.
  - rewrite (template_no_part _ _ N C). reflexivity.
  - unfold table_part. rewrite andb_comm. reflexivity.
Qed.
Lemma part_current : forall e l, named_right e -> table_part e = true -> current_parent (e :: l) = oid e.
Proof. intros e l N T. cbn [current_parent]. destruct (ocontent e) eqn:C; [|reflexivity]. rewrite (template_no_part _ _ N C) in T. discriminate T. Qed.

Lemma find_open_length : forall p l, List.length (find_open p l) <= List.length l.
Proof. induction l as [|e l IH]; [reflexivity|]. cbn. destruct (p e); cbn; lia. Qed.
Definition by_table (l : list oel) := find_open (fun e => str_eqb (oname e) (u "table")) l.
Definition by_template (l : list oel) := find_open (fun e => match ocontent e with Some _ => true | None => false end) l.
(* the first table or template from the top *)
Lemma first_stop : forall t l, (forall e, In e l -> named_right e) -> existsb stops l = true ->
  (exists e c r, In e l /\ ocontent e = Some c /\ foster_place t l = Last_in c /\ by_template l = e :: r /\ List.length (by_table l) < List.length (by_template l)) \/
  (exists e r, In e l /\ is "table" e = true /\ foster_place t l = foster_place t (e :: r) /\ by_table l = e :: r /\ List.length (by_template l) < List.length (by_table l)).
Proof.
  intros t l. induction l as [|e l IH]; intros N S; [discriminate S|]. pose proof (N e (or_introl eq_refl)) as Ne.
  unfold by_table, by_template. cbn [find_open]. rewrite (table_name e Ne). destruct (ocontent e) as [c|] eqn:C.
  - left. exists e, c, l. split; [left; reflexivity|]. split; [exact C|]. split; [cbn [foster_place]; rewrite C; reflexivity|]. split; [reflexivity|].
    destruct (is "table" e) eqn:T; [rewrite (is_table_content e Ne T) in C; discriminate C|]. pose proof (find_open_length (fun e => str_eqb (oname e) (u "table")) l). cbn [List.length]. lia.
  - destruct (is "table" e) eqn:T.
    + right. exists e, l. split; [left; reflexivity|]. split; [exact T|]. split; [reflexivity|]. split; [reflexivity|].
      pose proof (find_open_length (fun e => match ocontent e with Some _ => true | None => false end) l). cbn [List.length]. lia.
    + assert (existsb stops l = true) as S'.
      { cbn [existsb] in S. unfold stops at 1 in S. rewrite T in S. cbn [orb] in S. destruct (is "template" e) eqn:P; [|exact S]. exfalso. apply (proj1 (proj2 Ne)) in P. congruence. }
      assert (foster_place t (e :: l) = foster_place t l) as F.
      { cbn [foster_place]. rewrite C, T. destruct l; [discriminate S'|reflexivity]. }
      rewrite F. destruct (IH (fun x I => N x (or_intror I)) S') as [(x & c & r & I & Cx & P & B & L)|(x & r & I & Tx & P & B & L)].
      * left. exists x, c, r. split; [right; exact I|]. auto.
      * right. exists x, r. split; [right; exact I|]. auto.
Qed.
Lemma split_count : forall k l, count_occ Nat.eq_dec (nods l) k = 1 -> exists a b, l = a ++ Nod k :: b /\ ~ In k (nods a) /\ ~ In k (nods b).
Proof.
  intros k l. induction l as [|[s|j] l IH]; intros C.
  - discriminate C.
  - destruct (IH C) as (a & b & -> & A & B). exists (Txt s :: a), b. auto.
  - cbn [nods flat_map app] in C. fold (nods l) in C. destruct (Nat.eq_dec j k) as [->|D].
    + rewrite count_occ_cons_eq in C by reflexivity. exists [], l. split; [reflexivity|]. split; [intros []|]. apply (count_occ_not_In Nat.eq_dec). lia.
    + rewrite count_occ_cons_neq in C by exact D. destruct (IH C) as (a & b & -> & A & B). exists (Nod j :: a), b. split; [reflexivity|]. split; [|exact B]. intros [X|X]; [exact (D X)|exact (A X)].
Qed.
Lemma count_here : forall t q k, count_occ Nat.eq_dec (nods (ks t q)) k = 1 -> q < List.length t.
Proof. intros t q k C. destruct (Nat.lt_ge_cases q (List.length t)) as [L|L]; [exact L|]. rewrite (ks_out t q L) in C. discriminate C. Qed.

(* the place, where a part of a table is the current node *)
Lemma place_found : forall t e l tag, wf t (e :: l) -> table_part e = true -> match tag with Some n => in_strs n allowed_children | None => false end = false ->
  exists a r, at_place t (foster_place t (e :: l)) a r /\ parent_of (foster_place t (e :: l)) < List.length t /\ foster_for tag t (e :: l) = Some (parent_of (foster_place t (e :: l)), List.length a) /\
    (forall e', In e' (e :: l) -> table_part e' = true -> oid e' <> parent_of (foster_place t (e :: l))).
Proof.
  intros t e l tag W T G. unfold foster_for. pose proof (w_names _ _ W) as N.
  assert (existsb stops (e :: l) = true) as S by (apply (proj1 (w_housed _ _ W)); exact T).
  pose proof (part_eq e l (N e (or_introl eq_refl))) as PE. rewrite T in PE. apply andb_prop in PE as [-> ->]. cbn [negb orb]. rewrite G.
  fold (by_table (e :: l)). fold (by_template (e :: l)).
  destruct (first_stop t (e :: l) N S) as [(x & c & r & I & C & P & B & L)|(x & r & I & Tx & P & B & L)]; rewrite P.
  - cbn [parent_of]. exists (ks t c), []. split; [split; [cbn [parent_of]; rewrite app_nil_r; reflexivity|reflexivity]|]. destruct (w_content _ _ W x c I C) as [Lc Oc]. split; [exact Lc|]. split; [|intros e' I' _; exact (Oc e' I')].
    assert (0 <? List.length (by_template (e :: l)) = true) as -> by (apply Nat.ltb_lt; lia). apply Nat.ltb_lt in L. rewrite L, !andb_true_r.
    destruct (by_table (e :: l)) as [|y ys] eqn:Y; [cbn [List.length]; change (0 <? 0) with false; cbv iota|change (0 <? List.length (y :: ys)) with true; cbv iota]; rewrite B; cbv iota; rewrite C; reflexivity.
  - destruct (w_tables _ _ W x I Tx) as (q & U & Cn & Oq). destruct (split_count _ _ Cn) as (a & b & E & Na & Nb).
    assert (foster_place t (x :: r) = Before q (oid x)) as ->.
    { cbn [foster_place]. rewrite (is_table_content x (N x I) Tx), Tx, U. reflexivity. }
    cbn [parent_of]. exists a, (Nod (oid x) :: b). split; [split; [exact E|exists b; auto]|]. split; [exact (count_here _ _ _ Cn)|]. split; [|exact Oq].
    assert (List.length (by_table (e :: l)) <? List.length (by_template (e :: l)) = false) as -> by (apply Nat.ltb_ge; lia). rewrite andb_false_r. rewrite B. cbv iota. rewrite U.
    destruct (last_is (oid x) (ks t q)) eqn:La.
    + rewrite E in La. apply last_at in La; [|exact Nb]. subst b. rewrite E, app_length. cbn [List.length]. f_equal. f_equal. lia.
    + rewrite E, index_at by exact Na. reflexivity.
Qed.
Lemma place_set : forall t p x l, foster_place (set_ks t p x) l = foster_place t l.
Proof. induction l as [|e l IH]; [reflexivity|]. cbn [foster_place]. rewrite up_set, IH. reflexivity. Qed.
Lemma place_put : forall w x t l, foster_place (put_text w x t) l = foster_place t l.
Proof.
  intros w x. unfold put_text. induction x as [|c x IH]; intros t l; [reflexivity|]. cbn [fold_left]. rewrite IH. destruct w; cbn [put_char]; apply place_set.
Qed.

(* ---- well-formed states stay so ---- *)
Lemma wf_set : forall t l p x, wf t l -> nods x = nods (ks t p) -> (forall e, In e l -> table_part e = true -> oid e = p -> forall s, In s (txts x) -> s <> [] /\ blank s = true) -> wf (set_ks t p x) l.
Proof.
  intros t l p x W N X.
  assert (forall q, nods (ks (set_ks t p x) q) = nods (ks t q)) as K.
  { intros q. rewrite ks_set. destruct (Nat.eqb_spec q p) as [->|]; cbn [andb]; [destruct (p <? List.length t); [exact N|reflexivity]|reflexivity]. }
  destruct W. constructor; try assumption; rewrite ?set_length; try assumption.
  - intros q j. rewrite K. apply w_ids0.
  - intros e I T. destruct (w_tables0 e I T) as (q & A & B & C). exists q. rewrite up_set, K. auto.
  - intros e s I T. rewrite ks_set. destruct (Nat.eqb_spec (oid e) p) as [E|]; cbn [andb]; [|apply w_texts0; assumption]. destruct (p <? List.length t); [intros H; exact (X e I T E s H)|apply w_texts0; assumption].
Qed.
Lemma wf_more : forall t l n, wf t l -> kids n = [] -> wf (t ++ [n]) l.
Proof.
  intros t l n W K. assert (forall p, ks (t ++ [n]) p = ks t p) as Ks.
  { intros p. rewrite ks_more, K. destruct (Nat.ltb_spec p (List.length t)) as [|L]; [reflexivity|]. rewrite (ks_out t p L). destruct (p =? List.length t); reflexivity. }
  destruct W. constructor; try assumption; rewrite ?app_length; cbn [List.length].
  - intros p j. rewrite Ks. intros H. apply w_ids0 in H. lia.
  - intros e I. specialize (w_open0 e I). lia.
  - intros e c I C. destruct (w_content0 e c I C). split; [lia|assumption].
  - intros e I T. destruct (w_tables0 e I T) as (q & A & B & C). exists q. rewrite Ks, up_more by (apply w_open0; exact I). auto.
  - intros e s I T. rewrite Ks. apply w_texts0; assumption.
Qed.
(* a new node among the children of p *)
Lemma wf_node : forall t l p a r, wf t l -> ks t p = a ++ r -> p < List.length t -> wf (set_ks (t ++ [Node [] (Some p)]) p (a ++ Nod (List.length t) :: r)) l.
Proof.
  intros t l p a r W E L.
  assert (forall q, q < List.length t -> ks (t ++ [Node [] (Some p)]) q = ks t q) as Ks by (intros q H; rewrite ks_more; apply Nat.ltb_lt in H; rewrite H; reflexivity).
  assert (forall q, ks (set_ks (t ++ [Node [] (Some p)]) p (a ++ Nod (List.length t) :: r)) q = if q =? p then a ++ Nod (List.length t) :: r else ks t q) as K.
  { intros q. rewrite ks_set. rewrite app_length. cbn [List.length]. assert (p <? List.length t + 1 = true) as -> by (apply Nat.ltb_lt; lia). rewrite andb_true_r. destruct (q =? p); [reflexivity|].
    rewrite ks_more. destruct (Nat.ltb_spec q (List.length t)) as [|O]; [reflexivity|]. rewrite (ks_out t q O). destruct (q =? List.length t); reflexivity. }
  destruct W. constructor; try assumption; rewrite ?set_length, ?app_length; cbn [List.length].
  - intros q j. rewrite K. destruct (Nat.eqb_spec q p) as [->|]; [|intros H; apply w_ids0 in H; lia].
    rewrite nods_app. cbn [nods flat_map app]. intros H. apply in_app_or in H as [H|[<-|H]]; [|lia|]; assert (In j (nods (ks t p))) as J by (rewrite E, nods_app; apply in_or_app; auto); apply w_ids0 in J; lia.
  - intros e I. specialize (w_open0 e I). lia.
  - intros e c I C. destruct (w_content0 e c I C). split; [lia|assumption].
  - intros e I T. destruct (w_tables0 e I T) as (q & A & B & C). exists q. rewrite up_set, up_more by (apply w_open0; exact I). split; [exact A|]. split; [|exact C]. rewrite K.
    destruct (Nat.eqb_spec q p) as [->|]; [|exact B]. rewrite E, nods_app, count_occ_app in B. rewrite nods_app, count_occ_app. cbn [nods flat_map app]. rewrite count_occ_cons_neq; [exact B|]. specialize (w_open0 e I). lia.
  - intros e s I T. rewrite K. destruct (Nat.eqb_spec (oid e) p) as [Q|]; [|apply w_texts0; assumption]. rewrite txts_app. cbn [txts flat_map app]. fold (txts r). intros H. apply (w_texts0 e s I T). rewrite Q, E, txts_app. exact H.
Qed.
Lemma wf_skip : forall n t l, wf t l -> n < List.length l -> wf t (skipn n l).
Proof.
  intros n t l W L. assert (forall e, In e (skipn n l) -> In e l) as I by (intros e H; rewrite <- (firstn_skipn n l); apply in_or_app; right; exact H).
  destruct W. constructor.
  - intros H. apply (f_equal (@List.length _)) in H. rewrite skipn_length in H. cbn in H. lia.
  - exact w_ids0.
  - intros e H. apply w_open0. apply I. exact H.
  - intros e c H C. destruct (w_content0 e c (I _ H) C) as [A B]. split; [exact A|]. intros e' I'. apply B. apply I. exact I'.
  - rewrite <- (firstn_skipn n l), map_app in w_once0. clear - w_once0. revert w_once0. generalize (map oid (firstn n l)) as a. induction a as [|x a IH]; [intros H; exact H|]. intros H. cbn [app] in H. apply NoDup_cons_iff in H as [_ H]. exact (IH H).
  - intros e H. apply w_names0. apply I. exact H.
  - intros e H T. destruct (w_tables0 e (I _ H) T) as (q & A & B & C). exists q. split; [exact A|]. split; [exact B|]. intros e' I'. apply C. apply I. exact I'.
  - intros e s H. apply w_texts0. apply I. exact H.
  - clear - w_housed0. revert n. induction l as [|e l IH]; intros [|n]; cbn [skipn]; try exact w_housed0. apply IH. apply (proj2 w_housed0).
Qed.
(* the new element is open *)
Lemma wf_push : forall t l k name html q c, wf t l -> k < List.length t -> (forall e, In e l -> oid e <> k) -> (forall e c', In e l -> ocontent e = Some c' -> c' <> k) ->
  ks t k = [] -> up t k = Some q -> count_occ Nat.eq_dec (nods (ks t q)) k = 1 -> q <> k ->
  named_right (Oel k name html c) -> (is "table" (Oel k name html c) = true -> forall e, In e l -> table_part e = true -> oid e <> q) ->
  (table_part (Oel k name html c) = true -> forall e q', In e l -> is "table" e = true -> up t (oid e) = Some q' -> k <> q') ->
  (forall c', c = Some c' -> c' < List.length t /\ c' <> k /\ (forall e, In e l -> oid e <> c')) ->
  (table_part (Oel k name html c) = true -> existsb stops (Oel k name html c :: l) = true) -> wf t (Oel k name html c :: l).
Proof.
  intros t l k name html q c W L F F' Kk U Cn Qk N Tq Tp Cc H. destruct W. constructor; try assumption.
  - discriminate.
  - intros e [<-|I]; [exact L|auto].
  - intros e c' [<-|I] C; cbn [ocontent] in C.
    + destruct (Cc c' C) as (A & B & D). split; [exact A|]. intros e [<-|I]; [cbn; congruence|auto].
    + destruct (w_content0 e c' I C) as [A B]. split; [exact A|]. intros e' [<-|I']; [cbn; intros X; exact (F' e c' I C (eq_sym X))|auto].
  - cbn [map]. constructor; [|exact w_once0]. intros I. apply in_map_iff in I as (e & E & I). cbn in E. exact (F e I E).
  - intros e [<-|I]; auto.
  - intros e [<-|I] T.
    + exists q. cbn [oid]. split; [exact U|]. split; [exact Cn|]. intros e' [<-|I'] T'; [cbn; congruence|]. exact (Tq T e' I' T').
    + destruct (w_tables0 e I T) as (q' & A & B & D). exists q'. split; [exact A|]. split; [exact B|]. intros e' [<-|I'] T'; [cbn; exact (Tp T' e q' I T A)|auto].
  - intros e s [<-|I] T; [cbn [oid]; rewrite Kk; intros []|exact (w_texts0 e s I T)].
  - split; assumption.
Qed.
