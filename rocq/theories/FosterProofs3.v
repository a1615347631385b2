(* Proofs for C69, third part: elements *)
From Coq Require Import List Arith Bool String Lia.
From Verif Require Import Str StrFacts.
From Verif Require Import FosterModel FosterSpec FosterProofs1 FosterProofs2.
Import ListNotations.
Open Scope string_scope. Open Scope list_scope. Open Scope nat_scope.

Definition to_code (s : state) (k : nat) : fst := Fst (tree_of s) (stack_of s) (closed_formatting s) k.
Definition good (s : state) : Prop := wf (tree_of s) (stack_of s).

Lemma names_eq : forall n, one_of ["caption"; "colgroup"; "col"; "tbody"; "tfoot"; "thead"; "tr"; "td"; "th"; "table"; "style"; "script"; "template"; "form"] n = in_strs n allowed_children || one_of ["table"; "col"] n.
Proof.
  intros n. unfold one_of, in_strs, allowed_children. cbn [map existsb].
  repeat (match goal with |- context [str_eqb n ?x] => destruct (str_eqb n x) end; cbn [orb]; try reflexivity).
Qed.
Lemma current_bound : forall t e b, wf t (e :: b) -> current_parent (e :: b) < List.length t.
Proof.
  intros t e b W. cbn [current_parent]. destruct (ocontent e) eqn:C; [exact (proj1 (w_content _ _ W e _ (or_introl eq_refl) C))|exact (w_open _ _ W e (or_introl eq_refl))].
Qed.
Lemma not_current : forall t e b e', wf t (e :: b) -> table_part e = false -> In e' (e :: b) -> table_part e' = true -> oid e' <> current_parent (e :: b).
Proof.
  intros t e b e' W T I T'. cbn [current_parent]. destruct (ocontent e) eqn:C; [exact (proj2 (w_content _ _ W e _ (or_introl eq_refl) C) e' I)|]. intros E.
  destruct I as [->|I]; [congruence|]. pose proof (w_once _ _ W) as D. cbn [map] in D. apply NoDup_cons_iff in D as [D _]. apply D. rewrite <- E. apply in_map. exact I.
Qed.
(* wherever the standard puts something *)
Lemma place_at : forall t e b f, wf t (e :: b) -> let w := appropriate_place f t (e :: b) in
  exists a r, at_place t w a r /\ parent_of w < List.length t /\ (f && table_part e = false -> w = Last_in (current_parent (e :: b))).
Proof.
  intros t e b f W. cbn [appropriate_place]. destruct (f && table_part e) eqn:F.
  - apply andb_prop in F as [-> T]. destruct (place_found t e b None W T eq_refl) as (a & r & A & L & _). exists a, r. split; [exact A|]. split; [exact L|]. discriminate.
  - exists (ks t (current_parent (e :: b))), []. cbn [parent_of]. split; [split; [rewrite app_nil_r; reflexivity|reflexivity]|]. split; [exact (current_bound t e b W)|reflexivity].
Qed.
Lemma at_more : forall t w a r n, at_place t w a r -> parent_of w < List.length t -> at_place (t ++ [n]) w a r.
Proof. intros t w a r n [E W] L. split; [|exact W]. rewrite ks_more. apply Nat.ltb_lt in L. rewrite L. exact E. Qed.

Lemma insert_same : forall name html void hidden s k, good s -> ok_start name html void hidden s -> insert_element name html void hidden (to_code s k) = to_code (insert (negb (not_fostered name hidden)) name html void s) k.
Proof.
  intros name html void hidden s k W (O & _ & _). unfold good in W. destruct (stack_of s) as [|e b] eqn:S; [destruct (w_some _ _ W eq_refl)|].
  unfold insert_element, insert, to_code. cbn [tr open todo pend]. rewrite S. set (t := tree_of s) in *.
  assert ((match (if in_strs (parent_name (e :: b)) targets && negb (in_strs name allowed_children) && negb hidden then foster_for (Some name) t (e :: b) else None) with Some (q, i) => insert_at (t ++ [Node [] (Some (match (if in_strs (parent_name (e :: b)) targets && negb (in_strs name allowed_children) && negb hidden then foster_for (Some name) t (e :: b) else None) with Some (q, _) => q | None => current_parent (e :: b) end))]) q i (Nod (List.length t)) | None => set_ks (t ++ [Node [] (Some (match (if in_strs (parent_name (e :: b)) targets && negb (in_strs name allowed_children) && negb hidden then foster_for (Some name) t (e :: b) else None) with Some (q, _) => q | None => current_parent (e :: b) end))]) (current_parent (e :: b)) (ks (t ++ [Node [] (Some (match (if in_strs (parent_name (e :: b)) targets && negb (in_strs name allowed_children) && negb hidden then foster_for (Some name) t (e :: b) else None) with Some (q, _) => q | None => current_parent (e :: b) end))]) (current_parent (e :: b)) ++ [Nod (List.length t)]) end)
    = put_node (appropriate_place (negb (not_fostered name hidden)) t (e :: b)) (List.length t) (t ++ [Node [] (Some (parent_of (appropriate_place (negb (not_fostered name hidden)) t (e :: b))))])) as T.
  { assert (negb (in_strs name allowed_children) && negb hidden && table_part e = negb (not_fostered name hidden) && table_part e) as G.
    { unfold not_fostered. rewrite names_eq. destruct (one_of ["table"; "col"] name) eqn:X; [rewrite (O eq_refl), !andb_false_r; reflexivity|]. rewrite orb_false_r, negb_orb. reflexivity. }
    destruct (negb (not_fostered name hidden) && table_part e) eqn:F.
    - pose proof F as F'. apply andb_prop in F' as [Nf Tp]. rewrite Tp, andb_true_r in G. apply andb_prop in G as [Ga Gh]. rewrite Ga, Gh.
      pose proof (part_eq e b (w_names _ _ W e (or_introl eq_refl))) as PE. rewrite Tp in PE. apply andb_prop in PE as [-> _]. cbn [andb].
      destruct (place_found t e b (Some name) W Tp) as (a & r & A & L & Ff & _); [apply negb_true_iff; exact Ga|]. rewrite Ff. cbn [appropriate_place]. rewrite F.
      pose proof (at_more _ _ _ _ (Node [] (Some (parent_of (foster_place t (e :: b))))) A L) as A'. rewrite (insert_node_at _ _ _ _ _ A'), (put_node_at _ _ _ _ _ A'). reflexivity.
    - assert ((if in_strs (parent_name (e :: b)) targets && negb (in_strs name allowed_children) && negb hidden then foster_for (Some name) t (e :: b) else None) = None) as ->.
      { destruct (in_strs (parent_name (e :: b)) targets && negb (in_strs name allowed_children) && negb hidden) eqn:C; [|reflexivity]. apply andb_prop in C as [C Ch]. apply andb_prop in C as [Cp Ca]. rewrite Ca, Ch in G. cbn [andb] in G.
        pose proof (part_eq e b (w_names _ _ W e (or_introl eq_refl))) as PE. rewrite Cp, G in PE. cbn [andb] in PE. unfold foster_for. rewrite PE. cbn [negb]. rewrite orb_true_r. reflexivity. }
      cbn [appropriate_place]. rewrite F. reflexivity. }
  rewrite T. destruct (html && str_eqb name (u "template")); [reflexivity|]. reflexivity.
Qed.

Lemma in_part : forall n html k c, table_part (Oel k n html c) = true -> html = true /\ (str_eqb n (u "table") = true \/ one_of ["tbody"; "tfoot"; "thead"; "tr"] n = true).
Proof.
  intros n html k c H. unfold table_part in H. cbn [ohtml oname] in H. apply andb_prop in H as [A B]. split; [exact A|]. unfold one_of, in_strs in *. cbn [map existsb] in *. destruct (str_eqb n (u "table")); [left; reflexivity|right; exact B].
Qed.
Lemma count_zero : forall t l p k, wf t l -> List.length t <= k -> count_occ Nat.eq_dec (nods (ks t p)) k = 0.
Proof. intros t l p k W L. apply (count_occ_not_In Nat.eq_dec). intros H. apply (w_ids _ _ W) in H. lia. Qed.
Lemma insert_good : forall f name html void hidden s, good s -> ok_start name html void hidden s -> good (insert f name html void s).
Proof.
  intros f name html void hidden s W (O1 & O2 & O3). unfold good in *. destruct (stack_of s) as [|e b] eqn:S; [destruct (w_some _ _ W eq_refl)|].
  unfold insert. rewrite S. set (t := tree_of s) in *. set (w := appropriate_place f t (e :: b)). set (k := List.length t).
  destruct (place_at t e b f W) as (a & r & A & L & Cur). fold w in A, L, Cur.
  rewrite (put_node_at _ _ _ _ _ (at_more _ _ _ _ _ A L)). set (q := parent_of w) in *.
  pose proof (wf_node t (e :: b) q a r W (proj1 A) L) as W1. fold k in W1.
  set (t1 := set_ks (t ++ [Node [] (Some q)]) q (a ++ Nod k :: r)) in *.
  assert (List.length t1 = Datatypes.S k) as L1 by (unfold t1, k; rewrite set_length, app_length; cbn; lia).
  assert (q <> k) as Qk by (unfold k; lia).
  assert (ks t1 k = []) as Kk. { unfold t1. rewrite ks_other by (intros X; apply Qk; symmetry; exact X). rewrite ks_more. unfold k. rewrite Nat.ltb_irrefl, Nat.eqb_refl. reflexivity. }
  assert (up t1 k = Some q) as Uk by (unfold t1, k; rewrite up_set, up_new; reflexivity).
  assert (count_occ Nat.eq_dec (nods (ks t1 q)) k = 1) as Ck.
  { unfold t1. rewrite ks_same by (rewrite app_length; cbn; lia). pose proof (count_zero t _ q k W (Nat.le_refl _)) as Z. assert (ks t q = a ++ r) as Ea by exact (proj1 A). rewrite Ea, nods_app, count_occ_app in Z. rewrite nods_app, count_occ_app. cbn [nods flat_map app]. rewrite count_occ_cons_eq by reflexivity. unfold nods in *. lia. }
  assert (forall x, In x (e :: b) -> oid x <> k) as Fo. { intros x I. pose proof (w_open _ _ W x I). unfold k. lia. }
  assert (forall x c', In x (e :: b) -> ocontent x = Some c' -> c' <> k) as Fc. { intros x c' I C. pose proof (proj1 (w_content _ _ W x c' I C)). unfold k. lia. }
  assert (forall c, is "table" (Oel k name html c) = true -> forall x, In x (e :: b) -> table_part x = true -> oid x <> q) as Tq.
  { intros c Tb x I Tx. unfold is in Tb. cbn [ohtml oname] in Tb. apply andb_prop in Tb as [_ Tb]. assert (table_part e = false) as Te. { apply O1. unfold one_of, in_strs. cbn [map existsb]. rewrite Tb. reflexivity. }
    unfold q. rewrite Cur by (rewrite Te; apply andb_false_r). cbn [parent_of]. exact (not_current t e b x W Te I Tx). }
  assert (forall x q', In x (e :: b) -> is "table" x = true -> up t (oid x) = Some q' -> k <> q') as Tp.
  { intros x q' I Tx U. destruct (w_tables _ _ W x I Tx) as (q2 & U2 & C2 & _). rewrite U in U2. injection U2 as <-. apply count_here in C2. unfold k. lia. }
  assert (forall c, table_part (Oel k name html c) = true -> existsb stops (Oel k name html c :: e :: b) = true) as Hs.
  { intros c Tb. destruct (in_part _ _ _ _ Tb) as [-> [X|X]]; [|cbn [existsb]; apply orb_true_iff; right; exact (O2 X)].
    cbn [existsb]. unfold stops at 1, is at 1. cbn [ohtml oname]. rewrite X. reflexivity. }
  assert (str_eqb name (u "table") = true -> html = true) as N1 by exact O3.
  destruct (html && str_eqb name (u "template")) eqn:Tm.
  - cbn [tree_of stack_of]. assert (forall p, ks (t1 ++ [Node [] None]) p = ks t1 p) as Ks.
    { intros p. rewrite ks_more. destruct (Nat.ltb_spec p (List.length t1)) as [|Lp]; [reflexivity|]. rewrite (ks_out t1 p Lp). destruct (p =? List.length t1); reflexivity. }
    apply (wf_push _ _ _ _ _ q); try assumption.
    + apply wf_more; [exact W1|reflexivity].
    + rewrite app_length, L1. cbn. lia.
    + rewrite Ks. exact Kk.
    + rewrite up_more by (rewrite L1; lia). exact Uk.
    + rewrite Ks. exact Ck.
    + split; [exact N1|]. unfold is. cbn [ohtml oname ocontent]. rewrite Tm. split; [discriminate|reflexivity].
    + intros X. exact (Tq _ X).
    + intros _ x q' I Tx. rewrite up_more by (rewrite L1; pose proof (w_open _ _ W x I); unfold k; lia). unfold t1. rewrite up_set, up_more by exact (w_open _ _ W x I). exact (Tp x q' I Tx).
    + intros c' X. injection X as <-. split; [rewrite app_length, L1; cbn; lia|]. split; [lia|]. intros x I. pose proof (w_open _ _ W x I). unfold k. lia.
    + intros X. exact (Hs _ X).
  - destruct void; cbn [tree_of stack_of]; [exact W1|].
    apply (wf_push _ _ _ _ _ q); try assumption.
    + rewrite L1. lia.
    + split; [exact N1|]. unfold is. cbn [ohtml oname ocontent]. rewrite Tm. split; [discriminate|intros X; contradiction X; reflexivity].
    + intros X. exact (Tq _ X).
    + intros _ x q' I Tx. unfold t1. rewrite up_set, up_more by exact (w_open _ _ W x I). exact (Tp x q' I Tx).
    + discriminate.
    + intros X. exact (Hs _ X).
Qed.

(* formatting elements reopened *)
Definition formatting_name (n : str) : Prop := not_fostered n false = false /\ one_of ["table"; "tbody"; "tfoot"; "thead"; "tr"] n = false.
Lemma formatting_start : forall n void hidden s, formatting_name n -> ok_start n true void hidden s.
Proof.
  intros n void hidden s [A B]. split; [|split; [|reflexivity]]; intros H; exfalso.
  - unfold not_fostered in A. rewrite names_eq, H in A. rewrite orb_true_r in A. discriminate A.
  - unfold one_of, in_strs in *. cbn [map existsb] in *. destruct (str_eqb n (u "table")); [discriminate B|]. cbn [orb] in B. congruence.
Qed.
Lemma reopen_fold : forall l s k, Forall formatting_name l -> good s -> fold_left (fun s n => insert_element n true false false s) l (to_code s k) = to_code (fold_left (fun s n => insert true n true false s) l s) k /\ good (fold_left (fun s n => insert true n true false s) l s).
Proof.
  induction l as [|n l IH]; intros s k F W; [auto|]. inversion F as [|? ? Fn Fl]; subst. cbn [fold_left].
  pose proof (formatting_start n false false s Fn) as O. rewrite (insert_same _ _ _ _ s k W O). destruct Fn as [Fn _]. rewrite Fn. cbn [negb]. apply IH; [exact Fl|]. exact (insert_good _ _ _ _ _ s W O).
Qed.
Lemma reopen_same : forall s k, Forall formatting_name (closed_formatting s) -> good s -> reopen (to_code s k) = to_code (reconstruct s) k /\ good (reconstruct s).
Proof. intros s k F W. exact (reopen_fold (closed_formatting s) (State (tree_of s) (stack_of s) []) k F W). Qed.
Lemma insert_formatting : forall f n h v s, closed_formatting (insert f n h v s) = closed_formatting s.
Proof. intros. unfold insert. destruct (h && str_eqb n (u "template")); reflexivity. Qed.
Lemma reconstruct_done : forall s, closed_formatting (reconstruct s) = [].
Proof.
  intros s. unfold reconstruct. assert (forall l s, closed_formatting (fold_left (fun s n => insert true n true false s) l s) = closed_formatting s) as G.
  { induction l as [|n l IH]; intros x; [reflexivity|]. cbn [fold_left]. rewrite IH. apply insert_formatting. }
  apply G.
Qed.
(* what is reopened is then the current node, and no part of a table *)
Lemma reconstruct_top : forall s, closed_formatting s <> [] -> Forall formatting_name (closed_formatting s) -> exists e b, stack_of (reconstruct s) = e :: b /\ table_part e = false.
Proof.
  intros s N F. unfold reconstruct. set (s0 := State (tree_of s) (stack_of s) []). clearbody s0. destruct (closed_formatting s) as [|n l] eqn:E; [contradiction N; reflexivity|]. clear N E.
  assert (forall l s, (exists e b, stack_of s = e :: b /\ table_part e = false) -> Forall formatting_name l -> exists e b, stack_of (fold_left (fun s n => insert true n true false s) l s) = e :: b /\ table_part e = false) as G.
  { clear. induction l as [|n l IH]; intros s X F; [exact X|]. inversion F as [|? ? [A B] Fl]; subst. cbn [fold_left]. apply IH; [|exact Fl]. unfold insert. cbn [andb]. destruct (str_eqb n (u "template")); cbn [stack_of]; eexists _, _; (split; [reflexivity|exact B]). }
  inversion F as [|? ? [A B] Fl]; subst. cbn [fold_left]. apply G; [|exact Fl]. unfold insert. cbn [andb]. destruct (str_eqb n (u "template")); cbn [stack_of]; eexists _, _; (split; [reflexivity|exact B]).
Qed.
