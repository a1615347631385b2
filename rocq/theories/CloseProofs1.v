(* PROOFS for C66, part 1: both sides as one search down the stack; the shape of the stacks the parser reaches *)
From Coq Require Import List Arith Bool String Lia.
From Verif Require Import Str StrFacts SerTreeProofs.
From Verif Require Import AaaModel GuardModel CloseModel CloseSpec.
Import ListNotations.
Open Scope string_scope. Open Scope list_scope. Open Scope nat_scope.

(* ---- lists of names ---- *)
Definition sub (l m : list str) : bool := forallb (fun x => in_strs x m) l.
Lemma sub_in : forall l m n, sub l m = true -> in_strs n l = true -> in_strs n m = true.
Proof. intros l m n H Hn. apply in_strs_In in Hn. unfold sub in H. rewrite forallb_forall in H. exact (H n Hn). Qed.
Lemma same_in : forall l m n, sub l m && sub m l = true -> in_strs n l = in_strs n m.
Proof.
  intros l m n H. apply andb_true_iff in H. destruct H as [H K].
  destruct (in_strs n l) eqn:A, (in_strs n m) eqn:B; [reflexivity | | | reflexivity].
  - rewrite (sub_in _ _ _ H A) in B. discriminate.
  - rewrite (sub_in _ _ _ K B) in A. discriminate.
Qed.
Lemma in_strs_app : forall n l m, in_strs n (l ++ m) = in_strs n l || in_strs n m.
Proof.
  intros n l m. destruct (in_strs n (l ++ m)) eqn:A.
  - apply in_strs_In in A. apply in_app_iff in A. symmetry. apply orb_true_iff. destruct A as [A|A]; [left|right]; apply in_strs_In; exact A.
  - symmetry. apply orb_false_iff. split; (match goal with |- ?b = false => destruct b eqn:B; [|reflexivity] end); exfalso;
      (assert (in_strs n (l ++ m) = true) as C by (apply in_strs_In; apply in_app_iff; apply in_strs_In in B; tauto)); congruence.
Qed.
Lemma in_one : forall n (x : str), in_strs n [x] = str_eqb n x.
Proof.
  intros n x. destruct (in_strs n [x]) eqn:A; symmetry.
  - apply in_strs_In in A. destruct A as [A|[]]. subst. apply str_eqb_refl.
  - destruct (str_eqb n x) eqn:B; [|reflexivity]. apply str_eqb_eq in B. subst x.
    assert (in_strs n [n] = true) as C by (apply in_strs_In; left; reflexivity). congruence.
Qed.

(* ---- one search ---- *)
Fixpoint find_p (p b : el -> bool) (l : stack) : option stack :=
  match l with [] => None | e :: t => if p e then Some t else if b e then None else find_p p b t end.
Definition cut (p b : el -> bool) (l : stack) : stack := or_same (find_p p b l) l.

Lemma find_std : forall p b l, find_p p b l = if reaches p b l then Some (pop_until p l) else None.
Proof. intros p b. induction l as [|e t IH]; [reflexivity|]. cbn [find_p reaches pop_until]. destruct (p e); [reflexivity|]. cbn [orb]. destruct (b e); cbn [negb andb]; [reflexivity|exact IH]. Qed.
Lemma cut_std : forall p b l, cut p b l = if reaches p b l then pop_until p l else l.
Proof. intros. unfold cut. rewrite find_std. destruct (reaches p b l); reflexivity. Qed.

Lemma generate_until : forall p except l, (forall e, p e = true -> html e && one_of ["dd"; "dt"; "li"; "optgroup"; "option"; "p"; "rb"; "rp"; "rt"; "rtc"] (en e) && negb (except e) = false) ->
  pop_until p (generate except l) = pop_until p l.
Proof.
  intros p except l H. induction l as [|e t IH]; [reflexivity|]. cbn [generate pop_until].
  destruct (html e && _ && negb (except e)) eqn:G; [|reflexivity].
  destruct (p e) eqn:P; [|exact IH]. rewrite (H e P) in G. discriminate.
Qed.

(* the code's searches *)
Lemma find_before_p : forall name bounds l, find_before name bounds l = find_p (named name) (fun e => if html e then name_in bounds e else foreign_boundary e) l.
Proof. intros name bounds. induction l as [|e t IH]; [reflexivity|]. cbn [find_before find_p]. destruct (named name e); [reflexivity|]. destruct (html e); rewrite IH; reflexivity. Qed.
Lemma close_until_p : forall name bounds l, close_until name bounds l = find_p (named name) (fun e => html e && name_in bounds e) l.
Proof. intros name bounds. induction l as [|e t IH]; [reflexivity|]. cbn [close_until find_p]. rewrite IH. reflexivity. Qed.
Lemma find_heading_p : forall l, find_heading l = find_p (name_in headings) (fun e => (html e && name_in default_scope e) || foreign_boundary e) l.
Proof. induction l as [|e t IH]; [reflexivity|]. cbn [find_heading find_p]. rewrite IH. reflexivity. Qed.
Lemma close_li_p : forall l, close_li l = find_p (named (u "li")) (fun e => special e && negb (name_in (map u ["address"; "div"; "p"]) e)) l.
Proof. induction l as [|e t IH]; [reflexivity|]. cbn [close_li find_p]. rewrite IH. reflexivity. Qed.
Lemma find_special_p : forall name l, find_special name l = find_p (matches_end name) special l.
Proof. intros name. induction l as [|e t IH]; [reflexivity|]. cbn [find_special find_p]. rewrite IH. reflexivity. Qed.

(* the deep search is the shallow one *)
Lemma last_pos_le : forall p l, last_pos p l <= List.length l.
Proof. intros p. induction l as [|e t IH]; cbn [last_pos List.length]; [lia|]. destruct (p e); cbn [List.length]; lia. Qed.
Lemma deep_shallow : forall name bounds l, find_deep name bounds l = find_before name bounds l.
Proof.
  intros name bounds l. rewrite find_before_p. unfold find_deep.
  induction l as [|e t IH]; [reflexivity|]. cbn [last_pos find_p].
  destruct (named name e) eqn:N.
  - replace (List.length (e :: t) =? 0) with false by (cbn [List.length]; reflexivity).
    replace (_ <=? List.length (e :: t)) with true by (symmetry; apply Nat.leb_le; apply (last_pos_le (fun e => (html e && name_in bounds e) || foreign_boundary e) (e :: t))).
    rewrite Nat.sub_diag. reflexivity.
  - pose proof (last_pos_le (named name) t) as L.
    replace (if html e then name_in bounds e else foreign_boundary e) with ((html e && name_in bounds e) || foreign_boundary e)
      by (unfold foreign_boundary; destruct (html e); cbn [negb andb orb]; [apply orb_false_r|reflexivity]).
    destruct ((html e && name_in bounds e) || foreign_boundary e) eqn:B.
    + destruct (last_pos (named name) t =? 0) eqn:Z; [reflexivity|]. replace (List.length (e :: t) <=? _) with false by (symmetry; apply Nat.leb_gt; cbn [List.length]; lia). reflexivity.
    + rewrite <- IH. destruct (last_pos (named name) t =? 0) eqn:Z; [reflexivity|].
      destruct (last_pos _ t <=? last_pos (named name) t); [|reflexivity]. f_equal.
      apply Nat.eqb_neq in Z.
      replace (List.length (e :: t) - last_pos (named name) t + 1) with (S (List.length t - last_pos (named name) t + 1)) by (cbn [List.length]; lia). reflexivity.
Qed.

(* ---- searches that agree ---- *)
Fixpoint upper (l : stack) : stack := match l with [] => [] | e :: t => if point e then [e] else e :: upper t end.
Definition agrees (p b p' b' : el -> bool) (e : el) : Prop := p e = p' e /\ b e = b' e /\ (point e = true -> p e = false -> b e = true).
Lemma agree : forall p b p' b' l, Forall (agrees p b p' b') (upper l) -> find_p p b l = find_p p' b' l.
Proof.
  intros p b p' b'. induction l as [|e t IH]; [reflexivity|]. cbn [upper find_p]. destruct (point e) eqn:P; intros F; inversion F as [|x y A F']; subst; destruct A as [A [B C]]; rewrite <- A, <- B.
  - destruct (p e); [reflexivity|]. rewrite (C P eq_refl). reflexivity.
  - rewrite (IH F'). reflexivity.
Qed.
(* a weaker need: when the search does not run to a point *)
Lemma agree_all : forall p b p' b' l, Forall (fun e => p e = p' e /\ b e = b' e) l -> find_p p b l = find_p p' b' l.
Proof. intros p b p' b' l F. induction F as [|e t [A B] F IH]; [reflexivity|]. cbn [find_p]. rewrite A, B, IH. reflexivity. Qed.

(* ---- the stacks ---- *)
Definition sound_top (l : stack) : bool := match l with [] => false | e :: _ => html e || point e end.
Fixpoint chained (l : stack) : Prop := match l with [] => True | e :: t => (html e = true -> t <> [] -> sound_top t = true) /\ chained t end.
Definition okel (e : el) : Prop :=
  if html e then lower (en e) = en e /\ (in_strs (en e) (formatting_names ++ map u ["body"; "html"]) = true \/ (ordinary (en e) = true /\ in_strs (en e) void_names = false))
  else exists n, lower n = n /\ in_strs n breakout_names = false /\ en e = match es e with Svg => svg_name n | _ => n end.
Definition block (e : el) : bool := html e && (name_in p_closing e || named (u "body") e).
Fixpoint nopara (l : stack) : Prop := match l with [] => True | e :: t => (block e = true -> in_scope (is "p") ["button"] t = false) /\ nopara t end.
Definition dl_stop (e : el) : bool := html e && ends_scope ["dl"] e.
Fixpoint noitem (l : stack) : Prop := match l with [] => True | e :: t => (definition e = true -> reaches definition dl_stop t = false) /\ noitem t end.
Definition the_body : el := El (u "body") Html false.
Definition the_html : el := El (u "html") Html false.
Definition bottom (l : stack) : Prop := exists a, l = a ++ [the_body; the_html].
Record inv (l : stack) : Prop := { i_chain : chained l; i_el : Forall okel l; i_para : nopara l; i_item : noitem l; i_bottom : bottom l }.
