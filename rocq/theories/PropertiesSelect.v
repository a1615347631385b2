(* PROPERTY C61: selectedcontent elements mirror the chosen option, at bounded cost, and the copies are sanitized *)
From Coq Require Import List Arith Bool Lia.
From Verif Require Import Str StrFacts FinishModel FinishSpec FinishProofs SelectModel SelectSpec SelectProofs SelectProofs2 SelectProofs3 SelectProofs4 SelectProofs5 SelectProofs6 PropertiesFinish.
Import ListNotations.
Open Scope list_scope. Open Scope nat_scope.

(* The pass always ends, for any nesting of select elements; it copies no more nodes than the document has characters (remaining), keeps a tree, and changes nothing about the nodes that were there. *)
Theorem C61_bounded t s : NoDup (ids t) -> (forall x, In x (ids t) -> x < next s) ->
  exists t' s', project_all t s = Some (t', s') /\ root t' = root t /\ NoDup (ids t') /\ (forall x, In x (ids t') -> In x (ids t) \/ next s <= x < next s') /\
    next s' - next s <= remaining s /\ List.length (ids t') <= List.length (ids t) + remaining s /\ (forall x, x < next s -> info s' x = info s x).
Proof.
  destruct t as [n l]. intros N B. unfold project_all. cbn [ids] in N. inversion N as [|? ? Nn Nl]; subst.
  assert (W : forall fuel l s, sizes l + remaining s <= fuel -> NoDup (flat_map ids l) -> (forall x, In x (flat_map ids l) -> x < next s) -> exists l' s', walk_all fuel (drops s) (unwraps s) l s = Some (l', s') /\ NoDup (flat_map ids l') /\
    (forall x, In x (flat_map ids l') -> In x (flat_map ids l) \/ next s <= x < next s') /\ next s <= next s' /\ next s' + remaining s' = next s + remaining s /\ sizes l' + remaining s' <= sizes l + remaining s /\ (forall x, x < next s -> info s' x = info s x)).
  { clear. intros fuel l s. generalize (drops s), (unwraps s). intros dr un. revert s. induction l as [|t l IHl]; intros s L N B.
    - exists [], s. split; [reflexivity|]. split; [constructor|]. split; [intros x []|]. repeat split; auto.
    - cbn [flat_map walk_all] in *. rewrite app_length in *. apply nodup_app in N as (Na & Nb & Dj). destruct (IHl s) as (l1 & s1 & -> & N1 & I1 & X1 & U1 & Z1 & F1); [lia|exact Nb|intros; apply B; apply in_app_iff; now right|].
      destruct (walk_passed (fun _ _ _ => true) dr un fuel t s1) as (t2 & s2 & -> & P); [lia|exact Na|intros x Hx; specialize (B x ltac:(apply in_app_iff; now left)); lia|]. exists (t2 :: l1), s2. split; [reflexivity|]. destruct P. cbn [flat_map]. rewrite app_length.
      split; [|split; [|split; [lia|split; [lia|split; [lia|]]]]].
      + apply nodup_join; auto. intros x Hx Hl. destruct (p_ids x Hx) as [Ht|Hn]; destruct (I1 x Hl) as [Ho|Hn']; try lia; [exact (Dj x Ht Ho)| |]; [specialize (B x ltac:(apply in_app_iff; now left)); lia|specialize (B x ltac:(apply in_app_iff; now right)); lia].
      + intros x Hx. rewrite in_app_iff in *. destruct Hx as [Hx|Hx]; [destruct (p_ids x Hx); [tauto|right; lia]|destruct (I1 x Hx); [tauto|right; lia]].
      + intros x Hx. rewrite p_info by lia. now apply F1. }
  destruct (W (S (size_of (T n l) + remaining s)) l s) as (l' & s' & -> & H1 & H2 & H3 & H4 & H5 & H6); [cbn; lia|exact Nl|intros; apply B; now right|]. exists (T n l'), s'. split; [reflexivity|]. split; [reflexivity|].
  pose proof (B n (or_introl eq_refl)) as Bn. split; [|split; [|split; [lia|split; [cbn; lia|exact H6]]]].
  - cbn [ids]. constructor; [|exact H1]. intros Hi. destruct (H2 n Hi) as [?|?]; [contradiction|lia].
  - cbn [ids]. intros x [<-|Hx]; [left; now left|]. destruct (H2 x Hx) as [?|?]; [left; now right|now right].
Qed.
Print Assumptions C61_bounded.
(* One select element, whatever it contains: afterwards every selectedcontent in it that is not in the chosen option has the content of the chosen option and everything else is as before -
   unless the budget is used up, then selectedcontent elements may be empty instead. *)
Theorem C61_select dr un n l s t' s' full : name_is (u "select") (info s n) = true -> NoDup (ids (T n l)) -> (forall x, In x (ids (T n l)) -> x < next s) -> (full = true -> cost (info s) (T n l) <= remaining s) ->
  project_select dr un (T n l) s = (t', s') -> exists l', t' = T n l' /\ mirrored (info s) full (T n l) (map (view (info s')) l').
Proof. apply project_view. Qed.
Print Assumptions C61_select.
Definition leaves (inf : nat -> item) (t : tree) : Prop := forall v, In v (flat_map subtrees (below t)) -> is_elem (inf (root v)) = false -> below v = [].
Lemma whole allowed full t s : NoDup (ids t) -> (forall x, In x (ids t) -> x < next s) -> leaves (info s) t -> no_nested (info s) t -> (full = true -> fold_right (fun t c => total_cost (info s) t + c) 0 (below t) <= remaining s) ->
  exists l' s', project_all t s = Some (T (root t) l', s') /\ done (drops s) (unwraps s) allowed (info s) full (below t) s l' s'.
Proof.
  destruct t as [n l]. intros N B Lv Nn Hc. unfold project_all. cbn [below root] in *. cbn [ids] in N. inversion N as [|? ? Nr Nl]; subst.
  destruct (doc_walk_all (drops s) (unwraps s) allowed (info s) (next s) full (S (size_of (T n l) + remaining s)) l s) as (l' & s' & -> & D & _).
  - cbn. lia.
  - constructor; auto.
    + intros x Hx. apply B. now right.
    + intros v Hv. apply Nn. now right.
  - exists l', s'. split; [reflexivity|exact D].
Qed.
(* The whole document, if no select is inside a select.  Missing: nested select elements, where the outer one is filled first and the copies of the inner one after that. *)
Theorem C61_document_partial t s t' s' full : NoDup (ids t) -> (forall x, In x (ids t) -> x < next s) -> leaves (info s) t -> no_nested (info s) t ->
  (full = true -> fold_right (fun t c => total_cost (info s) t + c) 0 (below t) <= remaining s) -> project_all t s = Some (t', s') -> Forall2 (doc_shown (info s) full) (below t) (map (view (info s')) (below t')).
Proof. intros N B Lv Nn Hc E. destruct (whole (fun _ _ _ => true) full t s N B Lv Nn Hc) as (l2 & s2 & E2 & D). rewrite E in E2. injection E2 as -> <-. exact (e_shown _ _ _ _ _ _ _ _ _ D). Qed.
Print Assumptions C61_document_partial.
(* What has to be taken out of the document is recorded before this pass; after it, the copies of what has to be taken out are recorded, too - if no select is inside a select. *)
Definition recorded (s : st) (x : nat) : Prop := In x (drops s) \/ In x (unwraps s).
Definition harmless (allowed : str -> str -> list (str * str) -> bool) (i : item) : Prop := match i with Elem n ns a => allowed n ns a = true | _ => True end.
Lemma harmless_fine allowed i : harmless allowed i <-> fine allowed i = true.
Proof. destruct i; cbn; tauto. Qed.
Theorem C61_recorded_partial allowed t s t' s' : NoDup (ids t) -> (forall x, In x (ids t) -> x < next s) -> leaves (info s) t -> no_nested (info s) t -> 
  (forall x, In x (flat_map ids (below t)) -> harmless allowed (info s x) \/ recorded s x) -> project_all t s = Some (t', s') ->
  forall x, In x (flat_map ids (below t')) -> harmless allowed (info s' x) \/ recorded s' x.
Proof.
  intros N B Lv Nn Ho E x Hx. destruct (whole allowed false t s N B Lv Nn) as (l2 & s2 & E2 & D); [discriminate|]. rewrite E in E2. injection E2 as -> <-. cbn [below] in Hx.
  assert (Sx : safe allowed s' x). { apply (e_safe _ _ _ _ _ _ _ _ _ D); [|exact Hx]. intros y Hy. destruct (Ho y Hy) as [H|H]; [left; now apply harmless_fine|right; exact H]. }
  destruct Sx as [Sx|Sx]; [left; now apply harmless_fine|right; exact Sx].
Qed.
Print Assumptions C61_recorded_partial.
(* and then the finishing passes (C60) leave only what is allowed *)
Theorem C61_sanitized_partial allowed t s t' s' h h' t'' : NoDup (ids t) -> (forall x, In x (ids t) -> x < next s) -> leaves (info s) t -> no_nested (info s) t -> 
  (forall x, In x (flat_map ids (below t)) -> harmless allowed (info s x) \/ recorded s x) -> ~ In (root t) (unwraps s') -> project_all t s = Some (t', s') ->
  forest h -> shows h t' -> finish (root t') None (drops s') (unwraps s') h = Some h' -> shows h' t'' -> root t'' = root t' ->
  forall x, In x (ids t'') -> x <> root t'' -> harmless allowed (info s' x).
Proof.
  intros N B Lv Nn Ho Nr E G S F S' R x Hx Nx. destruct (C61_bounded t s N B) as (t1 & s1 & E1 & R1 & _). rewrite E in E1. injection E1 as <- <-.
  apply (C60_harmless (fun x => harmless allowed (info s' x)) (drops s') (unwraps s') h h' t' t'' G S); auto; [now rewrite R1| |congruence].
  intros y Hy Ny. destruct t' as [n l']. destruct Hy as [<-|Hy]; [contradiction|]. destruct (C61_recorded_partial allowed t s _ s' N B Lv Nn Ho E y Hy) as [H|H]; [now left|right; exact H].
Qed.
Print Assumptions C61_sanitized_partial.

(* With a select inside a select it fails.  The tree of <x><svg><select><selectedcontent></selectedcontent><option><select><selectedcontent></selectedcontent><option><a href=javascript:alert(1)>click
   0 document 1 html 2 head 3 body 4 x 5 svg 6 select 7 selectedcontent 8 option 9 select 10 selectedcontent 11 option 12 a 13 text;
   the default policy allows html, head, body (of the shell) here, everything in the svg and x are recorded to be unwrapped.  The link survives. *)
Definition e (n ns : string) : item := Elem (u n) (u ns) [].
Definition bad_link : item := Elem (u "a") (u "svg") [(u "href", u "javascript:alert(1)")].
Definition bad_info (i : nat) : item := nth i [Other; e "html" "html"; e "head" "html"; e "body" "html"; e "x" "html"; e "svg" "svg"; e "select" "svg"; e "selectedcontent" "svg"; e "option" "svg"; e "select" "svg"; e "selectedcontent" "svg"; e "option" "svg"; bad_link; Txt (u "click")] Other.
Definition bad_tree : tree := T 0 [T 1 [T 2 []; T 3 [T 4 [T 5 [T 6 [T 7 []; T 8 [T 9 [T 10 []; T 11 [T 12 [T 13 []]]]]]]]]]].
Definition bad_state : st := St bad_info 14 [] [4; 5; 6; 7; 8; 9; 10; 11; 12] 143.
Definition shell (n ns : str) (a : list (str * str)) : bool := str_eqb ns (u "html") && existsb (str_eqb n) [u "html"; u "head"; u "body"].
Theorem C61_recorded_refuted : NoDup (ids bad_tree) /\ (forall x, In x (ids bad_tree) -> x < next bad_state) /\ leaves (info bad_state) bad_tree /\
  (forall x, In x (flat_map ids (below bad_tree)) -> harmless shell (info bad_state x) \/ recorded bad_state x) /\
  exists t' s' h' x, project_all bad_tree bad_state = Some (t', s') /\ finish 0 None (drops s') (unwraps s') (heap_of t' (next s')) = Some h' /\ shows h' (T 0 [T 1 [T 2 []; T 3 [T x [T 20 []]; T 18 []; T 22 []; T 13 []]]]) /\ info s' x = bad_link.
Proof.
  split; [cbn; repeat constructor; cbn; intuition lia|]. split; [intros x Hx; cbn in *; intuition lia|]. split.
  - intros v Hv. cbn in Hv. intuition (subst v; cbn; first [reflexivity|discriminate]).
  - split; [intros x Hx; cbn in Hx; repeat (destruct Hx as [<-|Hx]; [first [left; reflexivity|right; right; cbn; tauto]|]); destruct Hx|].
    destruct (project_all bad_tree bad_state) as [[t' s']|] eqn:E; [|exfalso; vm_compute in E; discriminate].
    assert (E1 : t' = match project_all bad_tree bad_state with Some (t, _) => t | None => T 0 [] end) by now rewrite E. assert (E2 : s' = match project_all bad_tree bad_state with Some (_, s) => s | None => bad_state end) by now rewrite E.
    set (d := match project_all bad_tree bad_state with Some (_, s) => drops s | None => [] end). set (un := match project_all bad_tree bad_state with Some (_, s) => unwraps s | None => [] end). set (k := match project_all bad_tree bad_state with Some (_, s) => next s | None => 0 end).
    assert (Ed : drops s' = d) by (subst s' d; now rewrite E). assert (Eu : unwraps s' = un) by (subst s' un; now rewrite E). assert (Ek : next s' = k) by (subst s' k; now rewrite E). clear E.
    destruct (finish 0 None d un (heap_of t' k)) as [h'|] eqn:F; [|exfalso; rewrite E1 in F; vm_compute in F; discriminate].
    exists t', s', h', 19. split; [reflexivity|]. rewrite Ed, Eu, Ek. split; [exact F|]. split; [|subst s'; vm_compute; reflexivity].
    assert (E3 : h' = match finish 0 None d un (heap_of (match project_all bad_tree bad_state with Some (t, _) => t | None => T 0 [] end) k) with Some h => h | None => heap_of (T 0 []) 0 end) by (rewrite <- E1, F; reflexivity).
    assert (K : forall x, kids h' x = kids (match finish 0 None d un (heap_of (match project_all bad_tree bad_state with Some (t, _) => t | None => T 0 [] end) k) with Some h => h | None => heap_of (T 0 []) 0 end) x) by (intros x; now rewrite <- E3).
    cbn [shows map root]. rewrite !K. clear. vm_compute. repeat split.
Qed.
Print Assumptions C61_recorded_refuted.

(* a select with two selectedcontent elements, one disabled and two selected options; the second selected option counts: <select><button><selectedcontent></selectedcontent></button><option selected>A</option><option selected>B<b>c</b><selectedcontent></selectedcontent></option></select> *)
Definition s0 : st := St (fun i => nth i [Other; e "select" "html"; e "button" "html"; e "selectedcontent" "html"; Elem (u "option") (u "html") [(u "selected", [])]; Txt (u "A"); Elem (u "option") (u "html") [(u "selected", [])]; Txt (u "B"); e "b" "html"; Txt (u "c"); e "selectedcontent" "html"] Other) 11 [] [8] 100.
Definition t0 : tree := T 0 [T 1 [T 2 [T 3 []]; T 4 [T 5 []]; T 6 [T 7 []; T 8 [T 9 []]; T 10 []]]].
Example C61_case : exists t' s', project_all t0 s0 = Some (t', s') /\ t' = T 0 [T 1 [T 2 [T 3 [T 11 []; T 12 [T 13 []]; T 14 []]]; T 4 [T 5 []]; T 6 [T 7 []; T 8 [T 9 []]; T 10 []]]] /\ info s' 11 = Txt (u "B") /\ unwraps s' = [8; 12].
Proof. eexists. eexists. split; [reflexivity|]. split; [reflexivity|]. split; reflexivity. Qed.
Example C61_hyps : NoDup (ids t0) /\ (forall x, In x (ids t0) -> x < next s0) /\ leaves (info s0) t0 /\ no_nested (info s0) t0 /\ fold_right (fun t c => total_cost (info s0) t + c) 0 (below t0) <= remaining s0.
Proof.
  split; [cbn; repeat constructor; cbn; intuition lia|]. split; [intros x Hx; cbn in *; intuition lia|]. split; [intros v Hv; cbn in Hv; intuition (subst v; cbn; first [reflexivity|discriminate])|].
  split; [|vm_compute; lia]. intros v Hv Hs x Hx. cbn in Hv. repeat (destruct Hv as [<-|Hv]; [first [discriminate Hs|idtac]|]); [|destruct Hv]. cbn in Hx. repeat (destruct Hx as [<-|Hx]; [reflexivity|]). destruct Hx.
Qed.
