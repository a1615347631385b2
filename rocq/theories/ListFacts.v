(* General list lemmas missing from the 8.16 standard library *)
From Coq Require Import List Lia PeanoNat.
Import ListNotations.

Lemma skipn_skipn {A} (l : list A) : forall i j, skipn i (skipn j l) = skipn (j + i) l.
Proof. induction l as [|x l IH]; intros i j; [rewrite !skipn_nil; reflexivity|]. destruct j; [reflexivity|]. cbn. apply IH. Qed.

(* an occurrence of [n] in [a ++ x :: b] lies inside [a] or inside [b] when [x] is not in [n] *)
Lemma occ_split {A} (n a b p q : list A) x : ~ In x n -> (a ++ x :: b = p ++ n ++ q)%list ->
  (exists q', a = p ++ n ++ q')%list \/ (exists p', b = p' ++ n ++ q)%list.
Proof.
  intros Hx E. apply app_eq_app in E. destruct E as (l & [[Ea Eb]|[Ea Eb]]).
  - (* a = p ++ l, n ++ q = l ++ x :: b *)
    apply app_eq_app in Eb. destruct Eb as (m & [[E1 E2]|[E1 E2]]).
    + (* n = l ++ m, x :: b = m ++ q *)
      destruct m as [|y m].
      * rewrite app_nil_r in E1. subst. left. exists []. rewrite app_nil_r. reflexivity.
      * cbn in E2. injection E2 as -> _. exfalso. apply Hx. rewrite E1. apply in_or_app. right; left; reflexivity.
    + (* l = n ++ m *) left. exists m. rewrite Ea, E1. reflexivity.
  - (* p = a ++ l, x :: b = l ++ n ++ q *)
    destruct l as [|y l].
    + cbn in Eb. destruct n as [|y n].
      * left. exists []. rewrite app_nil_r in *. symmetry; rewrite Ea. reflexivity.
      * cbn in Eb. injection Eb as -> _. exfalso. apply Hx. left; reflexivity.
    + cbn in Eb. injection Eb as _ ->. right. exists l. reflexivity.
Qed.

Lemma nth_error_skipn {A} (l : list A) : forall i j, nth_error (skipn i l) j = nth_error l (i + j).
Proof. induction l as [|x l IH]; intros i j; [rewrite skipn_nil; destruct j, i; reflexivity|]. destruct i; [reflexivity|]. cbn. apply IH. Qed.
