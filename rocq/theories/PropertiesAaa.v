(* PROPERTY C62: a misnested end tag of a formatting element (adoption agency) *)
From Coq Require Import List Arith Bool String Lia.
From Verif Require Import Str StrFacts FinishModel AaaModel AaaSpec AaaProofs AaaProofs2 AaaProofs3.
Import ListNotations.
Open Scope list_scope. Open Scope nat_scope.

Lemma existsb_map {A B} (f : A -> B) p l : existsb p (map f l) = existsb (fun x => p (f x)) l.
Proof. induction l as [|x l IH]; cbn; [reflexivity|]. now rewrite IH. Qed.
Lemma same_special t : plain t -> code_special t = std_special t.
Proof.
  destruct t as [n sp]. intros [Hs Hx]. cbn [fst snd] in *. subst sp. unfold code_special, std_special, names, special_names. cbn [fst snd]. rewrite existsb_map.
  destruct (str_eqb n (u "dialog")) eqn:Ed.
  - apply str_eqb_eq in Ed. subst n. vm_compute. reflexivity.
  - cbn [negb andb]. cbn [existsb]. rewrite Ed. apply str_eqb_neq in Hx. rewrite Hx. reflexivity.
Qed.
Lemma same_boundary t : plain t -> code_boundary t = std_boundary t.
Proof. destruct t as [n sp]. intros [Hs Hx]. cbn [fst snd] in *. subst sp. unfold code_boundary, std_boundary, names. cbn [fst snd]. now rewrite existsb_map. Qed.
Lemma same_std s subject : (forall x, plain (tags s x)) -> (forall x n k, In (El x n k) (live (active s)) -> n <> u "xmp") ->
  std_adoption_agency code_special code_boundary subject (standing s) = std_adoption_agency std_special std_boundary subject (standing s).
Proof.
  intros A B. assert (E : std_rounds code_special code_boundary 8 subject (standing s) = std_rounds std_special std_boundary 8 subject (standing s)).
  { apply alike_rounds; [intros x; split; [apply same_special|apply same_boundary]; apply A|]. intros x n k H. specialize (B x n k H). split; [apply same_special|apply same_boundary]; split; auto. }
  unfold std_adoption_agency. rewrite E. reflexivity.
Qed.

(* The engine does what the standard says: the same elements are created and moved in the same order, the stack of open elements ends the same, and unless the eight rounds
   were used up so does the list of active formatting elements; after eight rounds the entries are the same, one of them further to the front.
   _partial: only for a listed element, and not when the current node has the name but is not listed (C62_any_other_refuted, C62_current_refuted); only HTML elements (C62_foreign_refuted);
   and see C62_bookmark_refuted. *)
Theorem C62_adoption_agency_partial s subject x name token :
  proper s -> (forall y, plain (tags s y)) -> (forall y n k, In (El y n k) (live (active s)) -> n <> u "xmp") ->
  last_named subject (rev (live (active s))) = Some (x, name, token) ->
  (forall y t, rev (stack s) = y :: t -> str_eqb (fst (tags s y)) subject = true -> In y (nodes (live (active s)))) ->
  exists s', adoption_agency code_special code_boundary subject s = Some s' /\
  match std_adoption_agency std_special std_boundary subject (standing s) with
  | AnyOther _ => False
  | Done d => agree s' d /\ live (active s') = d_list d
  | Exhausted d => agree s' d /\ one_later (live (active s')) (d_list d)
  end.
Proof.
  intros P A B L C. rewrite <- same_std by assumption. destruct (adoption_ok code_special code_boundary subject s x name token P L) as (s' & Q1 & Q2); [intros y t Hy Hn _; exact (C y t Hy Hn)|].
  exists s'. split; [exact Q1|]. destruct (std_adoption_agency _ _ _ _) as [d|d|d]; [exact Q2|exact Q2|]. destruct Q2 as (H1 & H2 & _). auto.
Qed.
(* with fewer than eight special elements open above the formatting element everything is the same *)
Theorem C62_few_blocks s subject x name token lower above :
  proper s -> (forall y, plain (tags s y)) -> (forall y n k, In (El y n k) (live (active s)) -> n <> u "xmp") ->
  last_named subject (rev (live (active s))) = Some (x, name, token) ->
  (forall y t, rev (stack s) = y :: t -> str_eqb (fst (tags s y)) subject = true -> In y (nodes (live (active s)))) ->
  stack s = lower ++ x :: above -> List.length (filter (fun y => std_special (tags s y)) above) < 8 ->
  exists s', adoption_agency code_special code_boundary subject s = Some s' /\ agree s' (std_end_tag std_special std_boundary subject (standing s)) /\ live (active s') = d_list (std_end_tag std_special std_boundary subject (standing s)).
Proof.
  intros P A B L C E H. destruct (adoption_ok code_special code_boundary subject s x name token P L) as (s' & Q1 & Q2); [intros y t Hy Hn _; exact (C y t Hy Hn)|]. rewrite same_std in Q2 by assumption.
  exists s'. split; [exact Q1|]. unfold std_end_tag. destruct (std_adoption_agency _ _ _ _) as [d|d|d]; [exact Q2|contradiction|].
  exfalso. destruct Q2 as (_ & _ & lower' & above' & E' & H'). pose proof (p_stack s P) as ND. rewrite E in E', ND. assert (K : lower = lower' /\ above = above').
  { apply (mid_unique x); [exact E'| |]. - apply nodup_parts in ND. tauto. - rewrite E' in ND. apply nodup_parts in ND. tauto. }
  destruct K as [<- <-]. rewrite (filter_ext_on (fun y => code_special (tags s y)) (fun y => std_special (tags s y))) in H' by (intros; apply same_special, A). lia.
Qed.
(* with no element of the name listed, and the current node of the name, it is popped, as the standard says *)
Theorem C62_current_node s subject y t :
  (forall z, plain (tags s z)) -> last_named subject (rev (live (active s))) = None -> rev (stack s) = y :: t -> str_eqb (fst (tags s y)) subject = true ->
  exists s', adoption_agency code_special code_boundary subject s = Some s' /\ agree s' (std_end_tag std_special std_boundary subject (standing s)) /\ live (active s') = d_list (std_end_tag std_special std_boundary subject (standing s)) /\ stack s' = rev t.
Proof.
  intros A L E N. assert (Es : stack s = rev t ++ [y]) by (rewrite <- (rev_involutive (stack s)), E; reflexivity).
  exists (St (rev t) (active s) (tags s) (next s) (ops s)).
  assert (M : forall l, last_named subject (rev (live l)) = None -> find_name subject (List.length l) l = None).
  { induction l as [|sl l IH] using rev_ind; [reflexivity|]. rewrite live_app, rev_app_distr, len_snoc. cbn [find_name]. rewrite nth_mid.
    assert (Z : find_name subject (List.length l) (l ++ [sl]) = find_name subject (List.length l) l).
    { assert (W : forall n, n <= List.length l -> find_name subject n (l ++ [sl]) = find_name subject n l); [|now apply W]. induction n as [|n IHn]; intros Hn; [reflexivity|]. cbn [find_name]. rewrite nth_error_app1 by lia. rewrite IHn by lia. reflexivity. }
    rewrite Z. destruct sl as [e|]; [|reflexivity]. destruct (e_live e) eqn:Le.
    - rewrite live_cons by assumption. change (live []) with (@nil item). cbn [rev app last_named el andb]. destruct (str_eqb (e_name e) subject); [discriminate|exact IH].
    - rewrite live_dead by assumption. cbn [rev app live flat_map andb]. exact IH. }
  assert (Ec : adoption_agency code_special code_boundary subject s = Some (St (rev t) (active s) (tags s) (next s) (ops s))).
  { unfold adoption_agency. destruct (last_opt (active s)) as [[e|]|] eqn:E1.
    - assert (NE : e_live e && str_eqb (e_name e) subject = false).
      { destruct (e_live e && str_eqb (e_name e) subject) eqn:K; [|reflexivity]. apply andb_true_iff in K as [K1 K2]. exfalso. destruct (active s) as [|sl l _] using rev_ind; [discriminate|]. rewrite last_opt_snoc in E1. injection E1 as ->.
        rewrite live_app, rev_app_distr, live_cons in L by assumption. change (live []) with (@nil item) in L. cbn [rev app last_named el] in L. rewrite K2 in L. discriminate. }
      rewrite NE. rewrite Es at 1. rewrite last_opt_snoc. cbn [andb]. cbn [rounds]. rewrite (M _ L), Es, last_opt_snoc, N, removelast_last. reflexivity.
    - cbn [rounds]. rewrite (M _ L), Es, last_opt_snoc, N, removelast_last. reflexivity.
    - cbn [rounds]. rewrite (M _ L), Es, last_opt_snoc, N, removelast_last. reflexivity. }
  split; [exact Ec|].
  assert (H : is_html (tags s y) = true) by (unfold is_html; destruct (A y) as [-> _]; reflexivity).
  assert (Ed : std_end_tag std_special std_boundary subject (standing s) = Std (rev t) (live (active s)) (tags s) (next s) (ops s)).
  { unfold std_end_tag, std_adoption_agency, standing. cbn [d_stack d_tags d_list d_next d_ops]. rewrite E, N, H. cbn [andb]. destruct (listed y (live (active s))); [|reflexivity].
    cbn [std_rounds d_list]. rewrite L. cbn [d_tags d_stack d_list d_next d_ops]. rewrite E. cbn [any_other]. rewrite N, H. reflexivity. }
  rewrite Ed. cbn [active d_list stack]. split; [repeat split|]. auto.
Qed.

(* states written down: elements 0.. with these names *)
Definition tags_of (l : list string) (x : nat) : tag := (u (nth x l "div"%string), Html).
Definition entry_of (x : nat) (n : string) : slot := Some (Entry x (u n) x true).
Ltac is_proper := constructor; cbn [stack active tags next ops]; [repeat constructor; cbn; intuition lia|cbn; repeat constructor; cbn; intuition lia|cbn; intuition lia|vm_compute; reflexivity|cbn; intuition lia].

(* <a><b><i><p>x</b>, with a retired entry in the list *)
Definition misnested_p : st := St [0; 1; 2; 3; 4; 5] [entry_of 2 "a"; Some (Entry 9 (u "u") 9 false); entry_of 3 "b"; entry_of 4 "i"] (tags_of ["html"; "body"; "a"; "b"; "i"; "p"; "x"]) 10 [].
Example C62_example_p : proper misnested_p
  /\ option_map (fun s => (stack s, ops s)) (adoption_agency code_special code_boundary (u "b") misnested_p)
     = Some ([0; 1; 2; 10; 5], [New 10 (u "i") 4; Move 5 10; Place 10 2; New 11 (u "b") 3; MoveAll 5 11; AaaModel.Append 5 11]).
Proof. split; [is_proper|vm_compute; reflexivity]. Qed.
Example C62_example_hypotheses : proper misnested_p /\ last_named (u "b") (rev (live (active misnested_p))) = Some (3, u "b", 3)
  /\ (forall y t, rev (stack misnested_p) = y :: t -> str_eqb (fst (tags misnested_p y)) (u "b") = true -> In y (nodes (live (active misnested_p))))
  /\ (forall y n k, In (El y n k) (live (active misnested_p)) -> n <> u "xmp") /\ (forall y, plain (tags misnested_p y))
  /\ List.length (filter (fun y => std_special (tags misnested_p y)) [4; 5]) < 8.
Proof.
  split; [is_proper|]. split; [vm_compute; reflexivity|]. split.
  - cbn [rev stack misnested_p app]. intros y t [= <- <-]. vm_compute. discriminate.
  - split; [intros y n k H; cbn in H; destruct H as [H|[H|[H|[]]]]; injection H as <- <- <-; discriminate|]. split; [|vm_compute; lia].
    intros y. split; [reflexivity|]. do 8 (destruct y as [|y]; [vm_compute; discriminate|]). vm_compute. discriminate.
Qed.

(* Finding: the engine puts the replacement before the bookmark.  <b><i> and nine <div> and </b>: afterwards the list has b before i, the standard i before b; what follows
   after the nine </div> is wrapped in i or in b (the entry before an open element is not reopened) *)
Definition deep : st := St [0; 1; 2; 3; 4; 5; 6; 7; 8; 9; 10; 11; 12] [entry_of 2 "b"; entry_of 3 "i"] (tags_of ["html"; "body"; "b"; "i"]) 13 [].
Theorem C62_bookmark_refuted :
  ~ (forall s subject x name token, proper s -> last_named subject (rev (live (active s))) = Some (x, name, token) ->
     (forall y t, rev (stack s) = y :: t -> str_eqb (fst (tags s y)) subject = true -> In y (nodes (live (active s)))) ->
     exists s', adoption_agency code_special code_boundary subject s = Some s' /\ live (active s') = d_list (std_end_tag std_special std_boundary subject (standing s))).
Proof.
  intros H. destruct (H deep (u "b") 2 (u "b") 2) as (s' & E & L).
  - is_proper.
  - vm_compute. reflexivity.
  - cbn [rev stack deep app]. intros y t [= <- <-]. vm_compute. discriminate.
  - assert (K : option_map (fun s => map (fun i => match i with El y _ _ => y | _ => 0 end) (live (active s))) (adoption_agency code_special code_boundary (u "b") deep)
                <> Some (map (fun i => match i with El y _ _ => y | _ => 0 end) (d_list (std_end_tag std_special std_boundary (u "b") (standing deep))))) by (vm_compute; discriminate).
    apply K. rewrite E. cbn [option_map]. now rewrite L.
Qed.
(* Finding: with no element of the name listed and another element open above the one of that name the end tag is ignored.
   <b><b><b><b></b></b></b><span>x</b>y: the standard closes span and b *)
Definition unlisted : st := St [0; 1; 2; 3] [] (tags_of ["html"; "body"; "b"; "span"]) 4 [].
Theorem C62_any_other_refuted :
  ~ (forall s subject, proper s -> exists s', adoption_agency code_special code_boundary subject s = Some s' /\ agree s' (std_end_tag std_special std_boundary subject (standing s))).
Proof.
  intros H. destruct (H unlisted (u "b")) as (s' & E & (St' & _)); [is_proper|].
  assert (K : option_map stack (adoption_agency code_special code_boundary (u "b") unlisted) <> Some (d_stack (std_end_tag std_special std_boundary (u "b") (standing unlisted)))) by (vm_compute; discriminate).
  apply K. rewrite E. cbn [option_map]. now rewrite St'.
Qed.
(* Finding: a current node of the name that is not listed is not popped when another element of the name is listed.
   <b><b><b><b></b></b></b><p><b></p></b>y: the standard pops the first b and keeps the listed one *)
Definition current_unlisted : st := St [0; 1; 2] [entry_of 3 "b"] (tags_of ["html"; "body"; "b"; "b"]) 4 [].
Theorem C62_current_refuted :
  ~ (forall s subject x name token, proper s -> last_named subject (rev (live (active s))) = Some (x, name, token) ->
     exists s', adoption_agency code_special code_boundary subject s = Some s' /\ agree s' (std_end_tag std_special std_boundary subject (standing s))).
Proof.
  intros H. destruct (H current_unlisted (u "b") 3 (u "b") 3) as (s' & E & (St' & _)); [is_proper|vm_compute; reflexivity|].
  assert (K : option_map stack (adoption_agency code_special code_boundary (u "b") current_unlisted) <> Some (d_stack (std_end_tag std_special std_boundary (u "b") (standing current_unlisted)))) by (vm_compute; discriminate).
  apply K. rewrite E. cbn [option_map]. now rewrite St'.
Qed.
(* Finding: an SVG foreignObject (or title, desc, MathML mi ...) does not end the scope.  <b><svg><foreignObject><div>x</b>y: the standard ignores the end tag, the engine moves the div out of the svg *)
Definition foreign : st := St [0; 1; 2; 3; 4; 5] [entry_of 2 "b"] (fun x => match x with 3 => (u "svg", Svg) | 4 => (u "foreignObject", Svg) | _ => tags_of ["html"; "body"; "b"] x end) 6 [].
Theorem C62_foreign_refuted :
  ~ (forall s subject x name token, proper s -> last_named subject (rev (live (active s))) = Some (x, name, token) ->
     (forall y t, rev (stack s) = y :: t -> str_eqb (fst (tags s y)) subject = true -> In y (nodes (live (active s)))) ->
     exists s', adoption_agency code_special code_boundary subject s = Some s' /\ agree s' (std_end_tag std_special std_boundary subject (standing s))).
Proof.
  intros H. destruct (H foreign (u "b") 2 (u "b") 2) as (s' & E & (St' & _)).
  - is_proper.
  - vm_compute. reflexivity.
  - cbn [rev stack foreign app]. intros y t [= <- <-]. vm_compute. discriminate.
  - assert (K : option_map stack (adoption_agency code_special code_boundary (u "b") foreign) <> Some (d_stack (std_end_tag std_special std_boundary (u "b") (standing foreign)))) by (vm_compute; discriminate).
    apply K. rewrite E. cbn [option_map]. now rewrite St'.
Qed.
Print Assumptions C62_adoption_agency_partial.
Print Assumptions C62_few_blocks.
Print Assumptions C62_current_node.
Print Assumptions C62_bookmark_refuted.
Print Assumptions C62_any_other_refuted.
Print Assumptions C62_current_refuted.
Print Assumptions C62_foreign_refuted.
