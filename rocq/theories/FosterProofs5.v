(* Proofs for C69, fifth part: no text is lost, and no node has two parents, whatever the history *)
From Coq Require Import List Arith Bool String Lia Permutation.
From Verif Require Import Str StrFacts.
From Verif Require Import FosterModel FosterSpec FosterProofs1 FosterProofs2.
Import ListNotations.
Open Scope string_scope. Open Scope list_scope. Open Scope nat_scope.

Definition all_of {A} (F : item -> list A) (t : tree) : list A := flat_map (fun n => flat_map F (kids n)) t.
Lemma all_set : forall A (F : item -> list A) t p, p < List.length t -> exists R, Permutation (all_of F t) (flat_map F (ks t p) ++ R) /\ forall l, Permutation (all_of F (set_ks t p l)) (flat_map F l ++ R).
Proof.
  intros A F. induction t as [|n t IH]; intros p L; [cbn in L; lia|]. destruct p as [|p].
  - exists (all_of F t). split; [reflexivity|]. intros l. reflexivity.
  - cbn [List.length] in L. destruct (IH p) as (R & P & Q); [lia|]. exists (flat_map F (kids n) ++ R). change (ks (n :: t) (Datatypes.S p)) with (ks t p). split.
    + cbn [all_of flat_map]. fold (all_of F t). rewrite P. apply Permutation_app_swap_app.
    + intros l. cbn [set_ks all_of flat_map]. fold (all_of F (set_ks t p l)). rewrite Q. apply Permutation_app_swap_app.
Qed.
Lemma all_changed : forall A (F : item -> list A) t p l x, p < List.length t -> Permutation (flat_map F l) (flat_map F (ks t p) ++ x) -> Permutation (all_of F (set_ks t p l)) (all_of F t ++ x).
Proof.
  intros A F t p l x L P. destruct (all_set A F t p L) as (R & Q & S). rewrite (S l), Q, P, <- !app_assoc. apply Permutation_app_head. apply Permutation_app_comm.
Qed.
Lemma all_more : forall A (F : item -> list A) t n, kids n = [] -> all_of F (t ++ [n]) = all_of F t.
Proof. intros A F t n K. unfold all_of. rewrite flat_map_app. cbn. rewrite K. apply app_nil_r. Qed.
Definition letters (i : item) : str := match i with Txt s => s | Nod _ => [] end.
Definition links (i : item) : list nat := match i with Nod k => [k] | Txt _ => [] end.

Lemma insert_perm : forall A (F : item -> list A) l i x, Permutation (flat_map F (insert_item l i x)) (flat_map F l ++ F x).
Proof.
  intros A F l i x. unfold insert_item. rewrite flat_map_app. cbn [flat_map]. rewrite <- (firstn_skipn i l) at 3. rewrite flat_map_app, <- app_assoc. apply Permutation_app_head. apply Permutation_app_comm.
Qed.
Lemma set_item_split : forall l i y x, nth_error l i = Some y -> exists a b, l = a ++ y :: b /\ set_item l i x = a ++ x :: b.
Proof.
  intros l i y x H. destruct (nth_error_split l i H) as (a & b & -> & <-). exists a, b. split; [reflexivity|]. unfold set_item. rewrite firstn_app, Nat.sub_diag, firstn_all. cbn [firstn]. rewrite app_nil_r.
  rewrite (skipn_app (Datatypes.S (List.length a)) a). rewrite skipn_all2 by lia. replace (Datatypes.S (List.length a) - List.length a) with 1 by lia. reflexivity.
Qed.
Lemma insert_at_text : forall t p i s, p < List.length t -> Permutation (all_of letters (insert_at t p i (Txt s))) (all_of letters t ++ s).
Proof.
  intros t p i s L. unfold insert_at. apply all_changed; [exact L|]. set (l := ks t p). clearbody l.
  assert (forall j b y, nth_error l j = Some (Txt b) -> Permutation y (b ++ s) -> Permutation (flat_map letters (set_item l j (Txt y))) (flat_map letters l ++ s)) as G.
  { intros j b y H P. destruct (set_item_split l j _ (Txt y) H) as (a & r & -> & ->). rewrite !flat_map_app. cbn [flat_map letters]. rewrite P, <- !app_assoc. apply Permutation_app_head. apply Permutation_app_head. apply Permutation_app_comm. }
  assert (Permutation (flat_map letters (match nth_error l i with Some (Txt a) => set_item l i (Txt (s ++ a)) | _ => insert_item l i (Txt s) end)) (flat_map letters l ++ s)) as G2.
  { destruct (nth_error l i) as [[a|k]|] eqn:E; [apply (G i a); [exact E|apply Permutation_app_comm]| |]; apply insert_perm. }
  destruct (0 <? i); [|exact G2]. destruct (nth_error l (i - 1)) as [[b|k]|] eqn:E; [apply (G (i - 1) b); [exact E|reflexivity]| |]; exact G2.
Qed.
Lemma insert_at_links : forall t p i s, p < List.length t -> Permutation (all_of links (insert_at t p i (Txt s))) (all_of links t).
Proof.
  intros t p i s L. rewrite <- (app_nil_r (all_of links t)). unfold insert_at. apply all_changed; [exact L|]. set (l := ks t p). clearbody l. rewrite app_nil_r.
  assert (forall j b y, nth_error l j = Some (Txt b) -> Permutation (flat_map links (set_item l j (Txt y))) (flat_map links l)) as G.
  { intros j b y H. destruct (set_item_split l j _ (Txt y) H) as (a & r & -> & ->). rewrite !flat_map_app. reflexivity. }
  assert (Permutation (flat_map links (match nth_error l i with Some (Txt a) => set_item l i (Txt (s ++ a)) | _ => insert_item l i (Txt s) end)) (flat_map links l)) as G2.
  { destruct (nth_error l i) as [[a|k]|] eqn:E; [exact (G i a _ E)| |]; rewrite insert_perm; cbn [links]; rewrite app_nil_r; reflexivity. }
  destruct (0 <? i); [|exact G2]. destruct (nth_error l (i - 1)) as [[b|k]|] eqn:E; [exact (G (i - 1) b _ E)| |]; exact G2.
Qed.
Lemma insert_at_node : forall A (F : item -> list A) t p i k, p < List.length t -> Permutation (all_of F (insert_at t p i (Nod k))) (all_of F t ++ F (Nod k)).
Proof. intros A F t p i k L. unfold insert_at. apply all_changed; [exact L|]. apply insert_perm. Qed.
Lemma append_at_text : forall t p s, p < List.length t -> Permutation (all_of letters (append_at t p s)) (all_of letters t ++ s) /\ Permutation (all_of links (append_at t p s)) (all_of links t).
Proof.
  intros t p s L. rewrite append_snoc. split.
  - apply all_changed; [exact L|]. destruct (last_case (ks t p)) as [->|[(r & b & ->)|(r & k & ->)]].
    + cbn. rewrite app_nil_r. reflexivity.
    + rewrite snoc_txt, !flat_map_app. cbn. rewrite !app_nil_r, <- app_assoc. reflexivity.
    + rewrite snoc_nod, !flat_map_app. cbn. rewrite !app_nil_r. reflexivity.
  - rewrite <- (app_nil_r (all_of links t)). apply all_changed; [exact L|]. rewrite app_nil_r. change links with (fun i => match i with Nod j => [j] | Txt _ => [] end). fold (nods (snoc (ks t p) s)). fold (nods (ks t p)). rewrite nods_snoc. reflexivity.
Qed.
Lemma append_node : forall A (F : item -> list A) t p k, p < List.length t -> Permutation (all_of F (set_ks t p (ks t p ++ [Nod k]))) (all_of F t ++ F (Nod k)).
Proof. intros A F t p k L. apply all_changed; [exact L|]. rewrite flat_map_app. cbn. rewrite app_nil_r. reflexivity. Qed.
Lemma take_back_text : forall t p n, p < List.length t -> let '(t', x) := take_back t p n in
  Permutation (all_of letters t' ++ x) (all_of letters t) /\ Permutation (all_of links t') (all_of links t) /\ List.length t' = List.length t /\ (forall k, up t' k = up t k).
Proof.
  intros t p n L. unfold take_back. destruct (last_case (ks t p)) as [E|[(r & b & E)|(r & k & E)]]; rewrite E; rewrite ?rev_app_distr; cbn [rev app].
  - rewrite app_nil_r. auto.
  - destruct (blank b); [|rewrite app_nil_r; auto]. rewrite rev_involutive. set (m := List.length b - n).
    set (l := r ++ match firstn m b with [] => [] | _ :: _ => [Txt (firstn m b)] end).
    assert (flat_map letters l = flat_map letters r ++ firstn m b) as El.
    { unfold l. rewrite flat_map_app. destruct (firstn m b); [reflexivity|]. cbn. rewrite app_nil_r. reflexivity. }
    assert (flat_map links l = flat_map links r) as Ek. { unfold l. rewrite flat_map_app. destruct (firstn m b); cbn; rewrite app_nil_r; reflexivity. }
    split; [|split; [|split; [apply set_length|intros k; apply up_set]]].
    + destruct (all_set _ letters t p L) as (R & Q & S). rewrite (S l), Q, El, E, flat_map_app. cbn [flat_map letters]. rewrite app_nil_r. rewrite <- (firstn_skipn m b) at 3. rewrite <- !app_assoc. do 2 apply Permutation_app_head. apply Permutation_app_comm.
    + rewrite <- (app_nil_r (all_of links t)). apply all_changed; [exact L|]. rewrite Ek, E, flat_map_app. cbn [flat_map links]. rewrite !app_nil_r. reflexivity.
  - rewrite app_nil_r. auto.
Qed.

(* what every history keeps *)
Record sound (t : tree) (l : list oel) : Prop := Sound {
  s_root : 0 < List.length t;
  s_open : forall e, In e l -> oid e < List.length t /\ (forall c, ocontent e = Some c -> c < List.length t);
  s_up : forall k q, up t k = Some q -> q < List.length t;
  s_links : forall k, In k (all_of links t) -> k < List.length t;
  s_once : NoDup (all_of links t)
}.
Lemma sound_current : forall t l, sound t l -> current_parent l < List.length t.
Proof. intros t [|e b] S; [exact (s_root _ _ S)|]. destruct (s_open _ _ S e (or_introl eq_refl)) as [A B]. cbn [current_parent]. destruct (ocontent e) eqn:C; [exact (B _ eq_refl)|exact A]. Qed.
Lemma find_open_in : forall p l e r, find_open p l = e :: r -> In e l.
Proof. induction l as [|x l IH]; intros e r H; [discriminate H|]. cbn in H. destruct (p x); [injection H as <- _; left; reflexivity|right; exact (IH e r H)]. Qed.
Lemma sound_foster : forall g t l q i, sound t l -> foster_for g t l = Some (q, i) -> q < List.length t.
Proof.
  intros g t l q i S H. unfold foster_for in H. destruct (negb (in_strs (parent_name l) targets) || negb (parent_html l)); [discriminate H|].
  destruct (match g with Some n => in_strs n allowed_children | None => false end); [discriminate H|].
  match type of H with match (if ?c then _ else _) with _ => _ end = _ => destruct c end.
  - destruct (find_open (fun e => match ocontent e with Some _ => true | None => false end) l) as [|e r] eqn:E; [discriminate H|]. destruct (ocontent e) eqn:C; [|discriminate H]. injection H as <- _. exact (proj2 (s_open _ _ S e (find_open_in _ _ _ _ E)) _ C).
  - destruct (find_open (fun e => str_eqb (oname e) (u "table")) l) as [|x xs] eqn:E1.
    + destruct (find_open (fun e => match ocontent e with Some _ => true | None => false end) l) as [|e r] eqn:E; [discriminate H|]. destruct (ocontent e) eqn:C; [|discriminate H]. injection H as <- _. exact (proj2 (s_open _ _ S e (find_open_in _ _ _ _ E)) _ C).
    + destruct (up t (oid x)) as [p|] eqn:U; [|discriminate H]. apply (s_up _ _ S) in U. destruct (last_is (oid x) (ks t p)); [injection H as <- _; exact U|]. destruct (index_of (oid x) (ks t p)); [injection H as <- _; exact U|discriminate H].
Qed.
Lemma sound_text : forall t t' l, sound t l -> List.length t' = List.length t -> (forall k, up t' k = up t k) -> Permutation (all_of links t') (all_of links t) -> sound t' l.
Proof.
  intros t t' l S L U P. destruct S. constructor; rewrite ?L; auto.
  - intros k q. rewrite U. apply s_up0.
  - intros k H. apply s_links0. exact (Permutation_in _ P H).
  - exact (Permutation_NoDup (Permutation_sym P) s_once0).
Qed.
Lemma insert_at_shape : forall t p i x, List.length (insert_at t p i x) = List.length t /\ forall k, up (insert_at t p i x) k = up t k.
Proof. intros. unfold insert_at. split; [apply set_length|intros k; apply up_set]. Qed.
(* a new node *)
Lemma sound_new : forall t t' l q, sound t l -> q < List.length t -> List.length t' = Datatypes.S (List.length t) -> (forall k, up t' k = up (t ++ [Node [] (Some q)]) k) -> Permutation (all_of links t') (all_of links t ++ [List.length t]) -> sound t' l.
Proof.
  intros t t' l q S Q L U P. destruct S. constructor; rewrite ?L.
  - lia.
  - intros e I. destruct (s_open0 e I) as [A B]. split; [lia|]. intros c C. specialize (B c C). lia.
  - intros k p H. rewrite U in H. unfold up in H. destruct (Nat.lt_trichotomy k (List.length t)) as [X|[->|X]].
    + rewrite nth_error_app1 in H by exact X. apply s_up0 in H. lia.
    + rewrite nth_error_app2, Nat.sub_diag in H by lia. injection H as <-. lia.
    + rewrite nth_error_app2 in H by lia. destruct (k - List.length t) as [|[|m]] eqn:D; [lia| |]; discriminate H.
  - intros k H. apply (Permutation_in _ P) in H. apply in_app_or in H as [H|[<-|[]]]; [apply s_links0 in H|]; lia.
  - apply (Permutation_NoDup (Permutation_sym P)). apply (Permutation_NoDup (Permutation_cons_append _ _)). constructor; [|exact s_once0]. intros H. apply s_links0 in H. lia.
Qed.
Lemma sound_more : forall t l, sound t l -> sound (t ++ [Node [] None]) l.
Proof.
  intros t l S. destruct S. constructor; rewrite ?app_length; cbn [List.length]; rewrite ?all_more by reflexivity; auto.
  - lia.
  - intros e I. destruct (s_open0 e I) as [A B]. split; [lia|]. intros c C. specialize (B c C). lia.
  - intros k q H. unfold up in H. destruct (Nat.lt_ge_cases k (List.length t)) as [X|X].
    + rewrite nth_error_app1 in H by exact X. apply s_up0 in H. lia.
    + rewrite nth_error_app2 in H by lia. destruct (k - List.length t) as [|[|m]]; discriminate H.
  - intros k H. apply s_links0 in H. lia.
Qed.
Lemma sound_push : forall t l k n h c, sound t l -> k < List.length t -> (forall c', c = Some c' -> c' < List.length t) -> sound t (Oel k n h c :: l).
Proof. intros t l k n h c S K C. destruct S. constructor; auto. intros e [<-|I]; [split; [exact K|exact C]|auto]. Qed.
Definition keeps (s s' : fst) (x : str) : Prop := sound (tr s') (open s') /\ Permutation (all_of letters (tr s')) (all_of letters (tr s) ++ x).
Lemma keeps_trans : forall a b c x y, keeps a b x -> keeps b c y -> keeps a c (x ++ y).
Proof. intros a b c x y [_ P] [S Q]. split; [exact S|]. rewrite Q, P, app_assoc. reflexivity. Qed.
Lemma insert_keeps : forall name html void hidden s, sound (tr s) (open s) -> keeps s (insert_element name html void hidden s) [].
Proof.
  intros name html void hidden s S. unfold insert_element. set (t := tr s) in *. set (l := open s) in *.
  set (fo := if in_strs (parent_name l) targets && negb (in_strs name allowed_children) && negb hidden then foster_for (Some name) t l else None).
  assert (exists q, match fo with Some (q, _) => q | None => current_parent l end = q /\ q < List.length t) as (q & Eq & Lq).
  { destruct fo as [[q i]|] eqn:F; [|exists (current_parent l); split; [reflexivity|exact (sound_current _ _ S)]]. exists q. split; [reflexivity|]. unfold fo in F. destruct (in_strs (parent_name l) targets && negb (in_strs name allowed_children) && negb hidden); [|discriminate F]. exact (sound_foster _ _ _ _ _ S F). }
  rewrite Eq. set (t0 := t ++ [Node [] (Some q)]). assert (List.length t0 = Datatypes.S (List.length t)) as L0 by (unfold t0; rewrite app_length; cbn; lia).
  set (t1 := match fo with Some (q, i) => insert_at t0 q i (Nod (List.length t)) | None => set_ks t0 (current_parent l) (ks t0 (current_parent l) ++ [Nod (List.length t)]) end).
  assert (forall A (F : item -> list A), Permutation (all_of F t1) (all_of F t ++ F (Nod (List.length t)))) as P.
  { intros A F. assert (all_of F t0 = all_of F t) as <- by (apply all_more; reflexivity). unfold t1. destruct fo as [[q' i]|]; [subst q'; apply insert_at_node; lia|]. apply append_node. rewrite Eq. lia. }
  assert (List.length t1 = Datatypes.S (List.length t)) as L1 by (unfold t1; rewrite <- L0; destruct fo as [[q' i]|]; [apply insert_at_shape|apply set_length]).
  assert (sound t1 l) as S1. { apply (sound_new t t1 l q S Lq L1); [|exact (P _ links)]. intros k. unfold t1. fold t0. destruct fo as [[q' i]|]; [apply insert_at_shape|apply up_set]. }
  assert (Permutation (all_of letters t1) (all_of letters t ++ [])) as P1 by (rewrite (P _ letters); reflexivity).
  destruct (html && str_eqb name (u "template")); (split; cbn [tr open]).
  - apply sound_push; [apply sound_more; exact S1|rewrite app_length, L1; cbn; lia|]. intros c' X. injection X as <-. rewrite app_length, L1. cbn. lia.
  - rewrite all_more by reflexivity. exact P1.
  - destruct void; [exact S1|]. apply sound_push; [exact S1|rewrite L1; lia|discriminate].
  - exact P1.
Qed.
Lemma reopen_keeps : forall s, sound (tr s) (open s) -> keeps s (reopen s) [].
Proof.
  intros s S. unfold reopen. assert (forall l s, sound (tr s) (open s) -> keeps s (fold_left (fun s n => insert_element n true false false s) l s) []) as G.
  { induction l as [|n l IH]; intros x X; [split; [exact X|rewrite app_nil_r; reflexivity]|]. cbn [fold_left]. pose proof (insert_keeps n true false false x X) as K. exact (keeps_trans _ _ _ [] [] K (IH _ (proj1 K))). }
  apply (G (todo s) (Fst (tr s) (open s) [] (pend s))). exact S.
Qed.
Lemma text_keeps : forall raw text s, sound (tr s) (open s) -> keeps s (append_text (raw, text) s) text.
Proof.
  intros raw text s S. unfold append_text.
  set (s0 := Fst (tr s) (open s) (todo s) 0). set (s1 := match todo s0 with [] => s0 | _ :: _ => if negb (str_eqb (parent_name (open s0)) (u "caption")) && negb (in_strs (parent_name (open s0)) targets && blank raw) then reopen s0 else s0 end).
  assert (keeps s0 s1 []) as K1.
  { assert (keeps s0 s0 []) as K0 by (split; [exact S|rewrite app_nil_r; reflexivity]). unfold s1. destruct (todo s0); [exact K0|]. destruct (negb _ && negb _); [exact (reopen_keeps s0 S)|exact K0]. }
  change (todo s) with (todo s0). fold s1. assert (forall s2, keeps s1 s2 text -> keeps s s2 text) as G by (intros s2 K2; exact (keeps_trans s0 s1 s2 [] text K1 K2)). apply G. clear G. destruct K1 as [S1 _]. clearbody s1. clear s0.
  pose proof (sound_current _ _ S1) as L. destruct text as [|c text]; [split; [exact S1|rewrite app_nil_r; reflexivity]|].
  assert (forall k, keeps s1 (Fst (append_at (tr s1) (current_parent (open s1)) (c :: text)) (open s1) (todo s1) k) (c :: text)) as A.
  { intros k. destruct (append_at_text (tr s1) _ (c :: text) L) as [P Q]. split; cbn [tr open]; [|exact P]. apply (sound_text (tr s1)); [exact S1|rewrite append_snoc; apply set_length|intros j; rewrite append_snoc; apply up_set|exact Q]. }
  destruct (in_strs (parent_name (open s1)) targets && parent_html (open s1)); [|exact (A 0)]. destruct (blank (c :: text)); [exact (A _)|].
  assert (exists t' x, (if 0 <? pend s then take_back (tr s1) (current_parent (open s1)) (pend s) else (tr s1, [])) = (t', x) /\ Permutation (all_of letters t' ++ x) (all_of letters (tr s1)) /\ Permutation (all_of links t') (all_of links (tr s1)) /\ List.length t' = List.length (tr s1) /\ (forall k, up t' k = up (tr s1) k)) as (t' & x & -> & P & Q & Lt & U).
  { destruct (0 <? pend s); [|exists (tr s1), []; rewrite app_nil_r; auto]. pose proof (take_back_text (tr s1) _ (pend s) L) as T. destruct (take_back (tr s1) (current_parent (open s1)) (pend s)) as [t' x]. exists t', x. split; [reflexivity|exact T]. }
  pose proof (sound_text _ _ _ S1 Lt U Q) as St. cbn [tr open].
  assert (forall z, Permutation (all_of letters z) (all_of letters t' ++ (x ++ c :: text)) -> Permutation (all_of letters z) (all_of letters (tr s1) ++ c :: text)) as Z by (intros z H; rewrite H, app_assoc, P; reflexivity).
  destruct (foster_for None t' (open s1)) as [[q i]|] eqn:F; (split; cbn [tr open]).
  - pose proof (sound_foster _ _ _ _ _ St F) as Lq. destruct (insert_at_shape t' q i (Txt (x ++ c :: text))) as [X Y]. apply (sound_text t'); [exact St|exact X|exact Y|]. apply insert_at_links. exact Lq.
  - apply Z. apply insert_at_text. exact (sound_foster _ _ _ _ _ St F).
  - destruct (append_at_text t' (current_parent (open s1)) (x ++ c :: text)) as [_ Y]; [rewrite Lt; exact L|]. apply (sound_text t'); [exact St|rewrite append_snoc; apply set_length|intros j; rewrite append_snoc; apply up_set|exact Y].
  - apply Z. apply append_at_text. rewrite Lt. exact L.
Qed.
Lemma pieces_keep : forall l s, sound (tr s) (open s) -> keeps s (fold_left code_piece l s) (text_of l).
Proof.
  induction l as [|p l IH]; intros s S; [split; [exact S|rewrite app_nil_r; reflexivity]|]. cbn [fold_left].
  assert (keeps s (code_piece s p) (match p with Some (_, text) => text | None => [] end)) as K.
  { destruct p as [[raw text]|]; [exact (text_keeps raw text s S)|]. split; [exact S|rewrite app_nil_r; reflexivity]. }
  exact (keeps_trans _ _ _ _ _ K (IH _ (proj1 K))).
Qed.
Definition text_in (e : event) : str := match e with Run l => text_of l | _ => [] end.
Lemma event_keeps : forall ev s, sound (tr s) (open s) -> keeps s (code_event s ev) (text_in ev).
Proof.
  intros ev s S. unfold code_event. assert (sound (tr (cleared s)) (open (cleared s))) as S' by exact S.
  assert (forall l k f, (forall e, In e l -> In e (open s)) -> keeps s (Fst (tr s) l f k) []) as Stay.
  { intros l k f I. split; [|rewrite app_nil_r; reflexivity]. cbn [tr open]. destruct S. constructor; auto. }
  destruct ev as [l|name html void hidden| |n|l|]; cbn [text_in].
  - exact (pieces_keep l (cleared s) S').
  - exact (insert_keeps name html void hidden (cleared s) S').
  - cbn [cleared tr open todo pend]. pose proof (sound_current _ _ S) as L. set (q := current_parent (open s)) in *.
    assert (forall A (F : item -> list A), Permutation (all_of F (set_ks (tr s ++ [Node [] (Some q)]) q (ks (tr s ++ [Node [] (Some q)]) q ++ [Nod (List.length (tr s))]))) (all_of F (tr s) ++ F (Nod (List.length (tr s))))) as P.
    { intros A F. rewrite append_node by (rewrite app_length; cbn; lia). rewrite all_more by reflexivity. reflexivity. }
    split; cbn [tr open]; [|exact (P _ letters)]. apply (sound_new (tr s) _ _ q S L); [rewrite set_length, app_length; cbn; lia|intros k; apply up_set|exact (P _ links)].
  - apply Stay. intros e I. cbn [cleared open] in I. rewrite <- (firstn_skipn n (open s)). apply in_or_app. right. exact I.
  - apply Stay. auto.
  - exact (reopen_keeps (cleared s) S').
Qed.
Lemma run_keeps : forall es s, sound (tr s) (open s) -> keeps s (code_run es s) (flat_map text_in es).
Proof.
  induction es as [|e es IH]; intros s S; [split; [exact S|rewrite app_nil_r; reflexivity]|]. unfold code_run. cbn [fold_left]. pose proof (event_keeps e s S) as K. exact (keeps_trans _ _ _ _ _ K (IH _ (proj1 K))).
Qed.
Lemma begun_sound : sound (tr body_begun) (open body_begun).
Proof.
  constructor; cbn [body_begun tr open].
  - cbn. lia.
  - intros e [<-|[<-|[]]]; cbn; (split; [lia|discriminate]).
  - intros [|[|[|k]]] q H; cbn in H; try discriminate H. injection H as <-. cbn. lia.
  - intros k [<-|[]]. cbn. lia.
  - repeat constructor. intros [].
Qed.
