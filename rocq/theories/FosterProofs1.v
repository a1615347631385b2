(* Proofs for C69, first part: lists of children, the place *)
From Coq Require Import List Arith Bool String Lia.
From Verif Require Import Str StrFacts.
From Verif Require Import FosterModel FosterSpec.
Import ListNotations.
Open Scope string_scope. Open Scope list_scope. Open Scope nat_scope.

(* ---- trees ---- *)
Lemma set_length : forall t p l, List.length (set_ks t p l) = List.length t.
Proof. induction t as [|n t IH]; intros [|p] l; cbn; auto. Qed.
Lemma ks_set : forall t p l q, ks (set_ks t p l) q = if (q =? p) && (p <? List.length t) then l else ks t q.
Proof.
  unfold ks. induction t as [|n t IH]; intros p l q.
  - destruct p; cbn; rewrite andb_false_r; reflexivity.
  - destruct p as [|p], q as [|q]; cbn; try reflexivity. rewrite IH. reflexivity.
Qed.
Lemma ks_same : forall t p l, p < List.length t -> ks (set_ks t p l) p = l.
Proof. intros t p l H. rewrite ks_set. rewrite Nat.eqb_refl. apply Nat.ltb_lt in H. rewrite H. reflexivity. Qed.
Lemma ks_other : forall t p l q, q <> p -> ks (set_ks t p l) q = ks t q.
Proof. intros t p l q H. rewrite ks_set. apply Nat.eqb_neq in H. rewrite H. reflexivity. Qed.
Lemma up_set : forall t p l q, up (set_ks t p l) q = up t q.
Proof. unfold up. induction t as [|n t IH]; intros p l q; [destruct p; reflexivity|]. destruct p as [|p], q as [|q]; cbn; try reflexivity. apply IH. Qed.
Lemma set_set : forall t p a b, set_ks (set_ks t p a) p b = set_ks t p b.
Proof. induction t as [|n t IH]; intros [|p] a b; cbn; try reflexivity. rewrite IH. reflexivity. Qed.
Lemma set_self : forall t p, set_ks t p (ks t p) = t.
Proof. unfold ks. induction t as [|n t IH]; intros [|p]; cbn; try reflexivity; [destruct n; reflexivity|]. rewrite IH. reflexivity. Qed.
Lemma ks_out : forall t p, List.length t <= p -> ks t p = [].
Proof. intros t p H. unfold ks. apply nth_error_None in H. rewrite H. reflexivity. Qed.
Lemma ks_more : forall t n p, ks (t ++ [n]) p = if p <? List.length t then ks t p else if p =? List.length t then kids n else [].
Proof.
  intros t n p. unfold ks. destruct (Nat.ltb_spec p (List.length t)) as [L|L]; [rewrite nth_error_app1 by exact L; reflexivity|].
  rewrite nth_error_app2 by exact L. destruct (Nat.eqb_spec p (List.length t)) as [->|N]; [rewrite Nat.sub_diag; reflexivity|].
  destruct (p - List.length t) as [|k] eqn:D; [lia|]. destruct k; reflexivity.
Qed.
Lemma up_more : forall t n p, p < List.length t -> up (t ++ [n]) p = up t p.
Proof. intros t n p L. unfold up. rewrite nth_error_app1 by exact L. reflexivity. Qed.
Lemma up_new : forall t n, up (t ++ [n]) (List.length t) = parent n.
Proof. intros t n. unfold up. rewrite nth_error_app2 by lia. rewrite Nat.sub_diag. reflexivity. Qed.

(* ---- text at the end of a list of children ---- *)
Definition snoc (a : list item) (x : str) : list item := match rev a with Txt b :: r => rev r ++ [Txt (b ++ x)] | _ => a ++ [Txt x] end.
Lemma last_case : forall a : list item, a = [] \/ (exists r b, a = r ++ [Txt b]) \/ (exists r k, a = r ++ [Nod k]).
Proof. intros a. destruct (rev a) as [|x r] eqn:E; apply (f_equal (@rev _)) in E; rewrite rev_involutive in E; [left; exact E|right]. cbn in E. destruct x; [left|right]; eauto. Qed.
Lemma snoc_txt : forall r b x, snoc (r ++ [Txt b]) x = r ++ [Txt (b ++ x)].
Proof. intros r b x. unfold snoc. rewrite rev_app_distr. cbn. rewrite rev_involutive. reflexivity. Qed.
Lemma snoc_nod : forall r k x, snoc (r ++ [Nod k]) x = r ++ [Nod k; Txt x].
Proof. intros r k x. unfold snoc. rewrite rev_app_distr. cbn. rewrite <- app_assoc. reflexivity. Qed.
Lemma snoc_nil : forall x, snoc [] x = [Txt x].
Proof. reflexivity. Qed.
Lemma snoc_snoc : forall a x y, snoc (snoc a x) y = snoc a (x ++ y).
Proof.
  intros a x y. destruct (last_case a) as [->|[(r & b & ->)|(r & k & ->)]].
  - reflexivity.
  - rewrite !snoc_txt. rewrite app_assoc. reflexivity.
  - rewrite !snoc_nod. change [Nod k; Txt x] with ([Nod k] ++ [Txt x]). rewrite app_assoc, snoc_txt, <- app_assoc. reflexivity.
Qed.
Lemma append_snoc : forall t p s, append_at t p s = set_ks t p (snoc (ks t p) s).
Proof. reflexivity. Qed.
Definition nods (l : list item) : list nat := flat_map (fun i => match i with Nod j => [j] | Txt _ => [] end) l.
Definition txts (l : list item) : list str := flat_map (fun i => match i with Nod _ => [] | Txt s => [s] end) l.
Lemma nods_app : forall a b, nods (a ++ b) = nods a ++ nods b.
Proof. intros. apply flat_map_app. Qed.
Lemma txts_app : forall a b, txts (a ++ b) = txts a ++ txts b.
Proof. intros. apply flat_map_app. Qed.
Lemma nods_snoc : forall a x, nods (snoc a x) = nods a.
Proof.
  intros a x. destruct (last_case a) as [->|[(r & b & ->)|(r & k & ->)]]; [reflexivity|rewrite snoc_txt, !nods_app; reflexivity|].
  rewrite snoc_nod, !nods_app. reflexivity.
Qed.
Lemma in_nods : forall k l, In (Nod k) l <-> In k (nods l).
Proof.
  intros k l. unfold nods. rewrite in_flat_map. split; [intros H; exists (Nod k); cbn; auto|]. intros ([s|j] & H & I); cbn in I; [contradiction|]. destruct I as [->|[]]. exact H.
Qed.

(* characters one after the other *)
Lemma char_last_snoc : forall c l, char_last c l = snoc l [c].
Proof.
  intros c l. induction l as [|x l IH]; [reflexivity|]. destruct l as [|y l]; [destruct x; reflexivity|].
  assert (char_last c (x :: y :: l) = x :: char_last c (y :: l)) as -> by (destruct x; reflexivity). rewrite IH.
  destruct (last_case (y :: l)) as [E|[(r & b & E)|(r & k & E)]]; [discriminate E| |]; rewrite E, ?app_comm_cons, ?snoc_txt, ?snoc_nod; reflexivity.
Qed.
Lemma char_before_snoc : forall k c a b, ~ In k (nods a) -> char_before k c (a ++ Nod k :: b) = snoc a [c] ++ Nod k :: b.
Proof.
  intros k c a b. induction a as [|x a IH]; intros N.
  - cbn. rewrite Nat.eqb_refl. reflexivity.
  - destruct x as [s|j].
    + destruct a as [|y a].
      * cbn. rewrite Nat.eqb_refl. reflexivity.
      * assert (char_before k c ((Txt s :: y :: a) ++ Nod k :: b) = Txt s :: char_before k c ((y :: a) ++ Nod k :: b)) as ->.
        { cbn [app]. cbn [char_before]. destruct y as [s'|j]; [reflexivity|]. destruct (Nat.eqb_spec j k) as [->|]; [|reflexivity]. exfalso. apply N. cbn. auto. }
        rewrite IH by exact N. destruct (last_case (y :: a)) as [E|[(r & d & E)|(r & d & E)]]; [discriminate E| |]; rewrite E, ?app_comm_cons, ?snoc_txt, ?snoc_nod; reflexivity.
    + assert (j <> k) as J by (intros ->; apply N; left; reflexivity).
      assert (~ In k (nods a)) as N' by (intros H; apply N; right; exact H).
      assert (char_before k c ((Nod j :: a) ++ Nod k :: b) = Nod j :: char_before k c (a ++ Nod k :: b)) as ->.
      { cbn [app char_before]. apply Nat.eqb_neq in J. rewrite J. reflexivity. }
      rewrite IH by exact N'. destruct a as [|y a]; [reflexivity|].
      destruct (last_case (y :: a)) as [E|[(r & d & E)|(r & d & E)]]; [discriminate E| |]; rewrite E, ?app_comm_cons, ?snoc_txt, ?snoc_nod; reflexivity.
Qed.
Lemma node_before_at : forall k x a b, ~ In k (nods a) -> node_before k x (a ++ Nod k :: b) = a ++ x :: Nod k :: b.
Proof.
  intros k x a b. induction a as [|[s|j] a IH]; intros N; cbn [app node_before].
  - rewrite Nat.eqb_refl. reflexivity.
  - rewrite IH by exact N. reflexivity.
  - assert (j <> k) as J by (intros ->; apply N; left; reflexivity). apply Nat.eqb_neq in J. rewrite J. rewrite IH; [reflexivity|]. intros H. apply N. right. exact H.
Qed.
Lemma index_at : forall k a b, ~ In k (nods a) -> index_of k (a ++ Nod k :: b) = Some (List.length a).
Proof.
  intros k a b. induction a as [|[s|j] a IH]; intros N; cbn [app index_of].
  - rewrite Nat.eqb_refl. reflexivity.
  - rewrite IH by exact N. reflexivity.
  - assert (j <> k) as J by (intros ->; apply N; left; reflexivity). apply Nat.eqb_neq in J. rewrite J. rewrite IH; [reflexivity|]. intros H. apply N. right. exact H.
Qed.
Lemma last_at : forall k a b, ~ In k (nods b) -> last_is k (a ++ Nod k :: b) = true -> b = [].
Proof.
  intros k a b N H. unfold last_is in H. destruct (last_case b) as [->|[(r & d & ->)|(r & d & ->)]]; [reflexivity| |]; exfalso.
  - rewrite app_comm_cons, app_assoc, rev_app_distr in H. cbn in H. discriminate H.
  - rewrite app_comm_cons, app_assoc, rev_app_distr in H. cbn in H. apply Nat.eqb_eq in H. subst d. apply N. rewrite nods_app. apply in_or_app. right. left. reflexivity.
Qed.

(* ---- a place, and the position the parser has for it: a of the children before it, r after it ---- *)
Definition at_place (t : tree) (w : place) (a r : list item) : Prop :=
  ks t (parent_of w) = a ++ r /\ match w with Last_in p => r = [] | Before p k => exists b, r = Nod k :: b /\ ~ In k (nods a) /\ ~ In k (nods b) end.
Definition put_text (w : place) (x : str) (t : tree) : tree := fold_left (fun t c => put_char w c t) x t.
Lemma put_text_app : forall w x y t, put_text w (x ++ y) t = put_text w y (put_text w x t).
Proof. intros. apply fold_left_app. Qed.
Lemma put_char_at : forall t w a r c, at_place t w a r -> put_char w c t = set_ks t (parent_of w) (snoc a [c] ++ r).
Proof.
  intros t w a r c [E W]. destruct w as [p|p k]; cbn [put_char parent_of] in *.
  - subst r. rewrite app_nil_r in E. rewrite E, char_last_snoc, app_nil_r. reflexivity.
  - destruct W as (b & -> & N & N'). rewrite E, char_before_snoc by exact N. reflexivity.
Qed.
Lemma at_set : forall t w a r x, parent_of w < List.length t -> at_place t w a r -> at_place (set_ks t (parent_of w) (snoc a x ++ r)) w (snoc a x) r.
Proof.
  intros t w a r x L [E W]. split; [apply ks_same; exact L|]. destruct w as [p|p k]; [exact W|]. destruct W as (b & -> & N & N'). exists b. rewrite nods_snoc. auto.
Qed.
Lemma put_text_at : forall x t w a r, parent_of w < List.length t -> at_place t w a r -> x <> [] -> put_text w x t = set_ks t (parent_of w) (snoc a x ++ r).
Proof.
  induction x as [|c x IH]; intros t w a r L A N; [contradiction N; reflexivity|]. unfold put_text. cbn [fold_left]. rewrite (put_char_at _ _ _ _ _ A).
  destruct x as [|d x]; [reflexivity|]. fold (put_text w (d :: x) (set_ks t (parent_of w) (snoc a [c] ++ r))).
  rewrite (IH _ w (snoc a [c]) r); [|rewrite set_length; exact L|apply at_set; assumption|discriminate]. rewrite set_set, snoc_snoc. reflexivity.
Qed.
Lemma insert_text_at : forall t w a r x, at_place t w a r -> insert_at t (parent_of w) (List.length a) (Txt x) = set_ks t (parent_of w) (snoc a x ++ r).
Proof.
  intros t w a r x [E W]. unfold insert_at. rewrite E. f_equal.
  assert (nth_error (a ++ r) (List.length a) = match r with [] => None | y :: _ => Some y end) as Next by (rewrite nth_error_app2, Nat.sub_diag by lia; destruct r; reflexivity).
  assert (match r with Txt _ :: _ => False | _ => True end) as R by (destruct w; [rewrite W; exact I|destruct W as (b & -> & _); exact I]).
  destruct (last_case a) as [->|[(l & b & ->)|(l & k & ->)]].
  - cbn [List.length]. change (0 <? 0) with false. cbv iota. cbn [List.length] in Next. rewrite Next. destruct r as [|[s|j] r]; [reflexivity|contradiction|reflexivity].
  - rewrite app_length. cbn [List.length]. rewrite Nat.add_1_r. change (0 <? Datatypes.S (List.length l)) with true. cbv iota. replace (Datatypes.S (List.length l) - 1) with (List.length l) by lia.
    rewrite <- app_assoc. rewrite nth_error_app2, Nat.sub_diag by lia. cbn [nth_error app]. unfold set_item. rewrite firstn_app, Nat.sub_diag, firstn_all. cbn [firstn].
    rewrite (app_nil_r l). rewrite (skipn_app (Datatypes.S (List.length l)) l). rewrite skipn_all2 by lia. replace (Datatypes.S (List.length l) - List.length l) with 1 by lia. cbn [skipn app]. rewrite snoc_txt, <- app_assoc. reflexivity.
  - rewrite app_length. cbn [List.length]. rewrite Nat.add_1_r. change (0 <? Datatypes.S (List.length l)) with true. cbv iota. replace (Datatypes.S (List.length l) - 1) with (List.length l) by lia.
    assert (nth_error ((l ++ [Nod k]) ++ r) (List.length l) = Some (Nod k)) as -> by (rewrite <- app_assoc, nth_error_app2, Nat.sub_diag by lia; reflexivity). cbv iota.
    rewrite app_length in Next. cbn [List.length] in Next. rewrite Nat.add_1_r in Next. rewrite Next. rewrite snoc_nod.
    assert (insert_item ((l ++ [Nod k]) ++ r) (Datatypes.S (List.length l)) (Txt x) = (l ++ [Nod k; Txt x]) ++ r) as Ins.
    { unfold insert_item. replace (Datatypes.S (List.length l)) with (List.length (l ++ [Nod k])) by (rewrite app_length; cbn; lia). rewrite firstn_app, Nat.sub_diag, firstn_all, skipn_app, Nat.sub_diag, skipn_all. cbn [firstn skipn app].
      rewrite app_nil_r, <- !app_assoc. reflexivity. }
    destruct r as [|[s|j] r]; [exact Ins|contradiction|exact Ins].
Qed.
Lemma insert_node_at : forall t w a r x, at_place t w a r -> insert_at t (parent_of w) (List.length a) (Nod x) = set_ks t (parent_of w) (a ++ Nod x :: r).
Proof.
  intros t w a r x [E W]. unfold insert_at, insert_item. rewrite E. rewrite firstn_app, Nat.sub_diag, firstn_all, skipn_app, Nat.sub_diag, skipn_all. cbn [firstn skipn app]. rewrite app_nil_r. reflexivity.
Qed.
Lemma put_node_at : forall t w a r x, at_place t w a r -> put_node w x t = set_ks t (parent_of w) (a ++ Nod x :: r).
Proof.
  intros t w a r x [E W]. destruct w as [p|p k]; cbn [put_node parent_of] in *.
  - subst r. rewrite app_nil_r in E. rewrite E. reflexivity.
  - destruct W as (b & -> & N & N'). rewrite E, node_before_at by exact N. reflexivity.
Qed.
