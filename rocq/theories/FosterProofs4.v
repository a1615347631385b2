(* Proofs for C69, fourth part: text *)
From Coq Require Import List Arith Bool String Lia.
From Verif Require Import Str StrFacts.
From Verif Require Import FosterModel FosterSpec FosterProofs1 FosterProofs2 FosterProofs3.
Import ListNotations.
Open Scope string_scope. Open Scope list_scope. Open Scope nat_scope.

Lemma white_same : forall c, is_html_space c = white c.
Proof. intros c. unfold is_html_space, white. cbn [existsb]. rewrite orb_false_r, !orb_assoc. reflexivity. Qed.
Lemma blank_white : forall s, blank s = forallb white s.
Proof. induction s as [|c s IH]; [reflexivity|]. unfold blank in *. cbn [forallb]. rewrite white_same, IH. reflexivity. Qed.
Lemma blank_app : forall a b, blank (a ++ b) = blank a && blank b.
Proof. intros. apply forallb_app. Qed.

(* ---- the standard's characters ---- *)
Lemma appropriate_put : forall f w x t l, appropriate_place f (put_text w x t) l = appropriate_place f t l.
Proof. intros f w x t [|e b]; [reflexivity|]. cbn [appropriate_place]. rewrite place_put. reflexivity. Qed.
Lemma chars : forall f x s, fold_left (fun s c => insert_char f c s) x s = State (put_text (appropriate_place f (tree_of s) (stack_of s)) x (tree_of s)) (stack_of s) (closed_formatting s).
Proof.
  intros f x. induction x as [|c x IH]; intros s; [destruct s; reflexivity|]. cbn [fold_left]. rewrite IH. unfold insert_char. cbn [tree_of stack_of closed_formatting].
  change (put_char (appropriate_place f (tree_of s) (stack_of s)) c (tree_of s)) with (put_text (appropriate_place f (tree_of s) (stack_of s)) [c] (tree_of s)). rewrite appropriate_put, <- put_text_app. reflexivity.
Qed.
Lemma no_reconstruct : forall s, closed_formatting s = [] -> reconstruct s = s.
Proof. intros [t l f] E. cbn in E. subst. reflexivity. Qed.
Lemma body_chars : forall x s, closed_formatting s = [] -> fold_left body_char x s = fold_left (fun s c => insert_char true c s) x s.
Proof.
  induction x as [|c x IH]; intros s E; [reflexivity|]. cbn [fold_left]. unfold body_char at 2. rewrite no_reconstruct by exact E. apply IH. exact E.
Qed.
Lemma body_chars_reopen : forall x s, x <> [] -> fold_left body_char x s = fold_left (fun s c => insert_char true c s) x (reconstruct s).
Proof.
  intros [|c x] s N; [contradiction N; reflexivity|]. cbn [fold_left]. rewrite body_chars; [reflexivity|]. exact (reconstruct_done s).
Qed.

(* ---- text put keeps states well-formed ---- *)
Lemma in_snoc : forall s a x, In s (txts (snoc a x)) -> In s (txts a) \/ s = x \/ exists b, In b (txts a) /\ s = b ++ x.
Proof.
  intros s a x H. destruct (last_case a) as [->|[(r & b & ->)|(r & k & ->)]].
  - destruct H as [<-|[]]. auto.
  - rewrite snoc_txt, txts_app in H. rewrite txts_app. apply in_app_or in H as [H|[<-|[]]]; [left; apply in_or_app; auto|]. right. right. exists b. split; [apply in_or_app; right; left; reflexivity|reflexivity].
  - rewrite snoc_nod, txts_app in H. rewrite txts_app. apply in_app_or in H as [H|H]; [left; apply in_or_app; auto|]. destruct H as [<-|[]]. auto.
Qed.
Lemma put_good : forall w x t l a r, wf t l -> at_place t w a r -> parent_of w < List.length t ->
  (forall e, In e l -> table_part e = true -> oid e = parent_of w -> r = [] /\ blank x = true) -> wf (put_text w x t) l.
Proof.
  intros w x t l a r W A L B. destruct x as [|c x]; [exact W|]. rewrite (put_text_at _ _ _ _ _ L A) by discriminate. apply wf_set; [exact W| |].
  - rewrite (proj1 A), !nods_app, nods_snoc. reflexivity.
  - intros e I T E s H. destruct (B e I T E) as [-> X]. rewrite app_nil_r in H. pose proof (proj1 A) as K. rewrite app_nil_r, <- E in K.
    apply in_snoc in H as [H|[->|(b & H & ->)]].
    + apply (w_texts _ _ W e s I T). rewrite K. exact H.
    + split; [discriminate|exact X].
    + rewrite <- K in H. destruct (w_texts _ _ W e b I T H) as [_ Y]. split; [destruct b; discriminate|]. rewrite blank_app, Y, X. reflexivity.
Qed.

(* ---- the parser's pieces ---- *)
Notation piece := (option (str * str)).
Lemma append_put : forall t p x, x <> [] -> p < List.length t -> append_at t p x = put_text (Last_in p) x t.
Proof.
  intros t p x N L. rewrite append_snoc. rewrite (put_text_at x t (Last_in p) (ks t p) []); [rewrite app_nil_r; reflexivity|exact L| |exact N]. split; [rewrite app_nil_r; reflexivity|reflexivity].
Qed.
Lemma put_length : forall w x t, List.length (put_text w x t) = List.length t.
Proof. intros w x. unfold put_text. induction x as [|c x IH]; intros t; [reflexivity|]. cbn [fold_left]. rewrite IH. destruct w; cbn [put_char]; apply set_length. Qed.
(* where the current node is no part of a table *)
Lemma plain_piece_out : forall raw text t e b k, text <> [] -> wf t (e :: b) -> table_part e = false ->
  append_text (raw, text) (Fst t (e :: b) [] k) = Fst (put_text (Last_in (current_parent (e :: b))) text t) (e :: b) [] 0.
Proof.
  intros raw text t e b k N W T. unfold append_text. cbn [tr open todo pend]. pose proof (part_eq e b (w_names _ _ W e (or_introl eq_refl))) as PE. rewrite T in PE. rewrite PE.
  destruct text as [|c text]; [contradiction N; reflexivity|]. rewrite append_put; [reflexivity|discriminate|exact (current_bound t e b W)].
Qed.
Lemma last_place : forall t p, at_place t (Last_in p) (ks t p) [].
Proof. intros t p. split; [rewrite app_nil_r; reflexivity|reflexivity]. Qed.
Lemma out_good : forall t e b x, wf t (e :: b) -> table_part e = false -> wf (put_text (Last_in (current_parent (e :: b))) x t) (e :: b).
Proof.
  intros t e b x W T. apply (put_good _ _ _ _ _ _ W (last_place _ _)); [exact (current_bound t e b W)|]. intros e' I T' E. exfalso. exact (not_current t e b e' W T I T' E).
Qed.
Lemma run_out : forall l t e b k, Forall plain_piece l -> wf t (e :: b) -> table_part e = false -> 
  exists k', fold_left code_piece l (Fst t (e :: b) [] k) = Fst (put_text (Last_in (current_parent (e :: b))) (text_of l) t) (e :: b) [] k'.
Proof.
  induction l as [|p l IH]; intros t e b k F W T; [exists k; reflexivity|]. inversion F as [|? ? Fp Fl]; subst. destruct p as [[raw text]|]; [|contradiction]. destruct Fp as [N _]. cbn [fold_left code_piece].
  rewrite plain_piece_out by assumption. destruct (IH _ e b 0 Fl (out_good t e b text W T) T) as (k' & E). exists k'. rewrite E. cbn [text_of flat_map]. fold (text_of l). rewrite put_text_app. reflexivity.
Qed.
(* white space in a table *)
Lemma blank_piece : forall raw text t e b f k, text <> [] -> blank raw = true -> blank text = true -> wf t (e :: b) -> table_part e = true ->
  append_text (raw, text) (Fst t (e :: b) f k) = Fst (put_text (Last_in (oid e)) text t) (e :: b) f (k + List.length text).
Proof.
  intros raw text t e b f k N R B W T. unfold append_text. cbn [tr open todo pend]. pose proof (part_eq e b (w_names _ _ W e (or_introl eq_refl))) as PE. rewrite T in PE. pose proof PE as PE'. apply andb_prop in PE' as [P1 P2].
  rewrite P1, R. cbn [andb negb]. rewrite andb_false_r. assert (match f with [] => Fst t (e :: b) f 0 | _ :: _ => Fst t (e :: b) f 0 end = Fst t (e :: b) f 0) as -> by (destruct f; reflexivity).
  cbn [tr open todo pend]. rewrite P1, P2. cbn [andb]. destruct text as [|c text]; [contradiction N; reflexivity|]. rewrite B, (part_current e b (w_names _ _ W e (or_introl eq_refl)) T).
  rewrite append_put; [reflexivity|discriminate|exact (w_open _ _ W e (or_introl eq_refl))].
Qed.
Lemma blank_good : forall t e b x, wf t (e :: b) -> table_part e = true -> blank x = true -> wf (put_text (Last_in (oid e)) x t) (e :: b).
Proof. intros t e b x W T B. apply (put_good _ _ _ _ _ _ W (last_place _ _)); [exact (w_open _ _ W e (or_introl eq_refl))|]. auto. Qed.
Lemma plain_blank : forall raw text, plain_piece (Some (raw, text)) -> text <> [] /\ blank raw = blank text.
Proof. intros raw text [A B]. rewrite !blank_white. auto. Qed.
Lemma run_blank : forall l t e b f k, Forall plain_piece l -> blank (text_of l) = true -> wf t (e :: b) -> table_part e = true ->
  exists k', fold_left code_piece l (Fst t (e :: b) f k) = Fst (put_text (Last_in (oid e)) (text_of l) t) (e :: b) f k'.
Proof.
  induction l as [|p l IH]; intros t e b f k F B W T; [exists k; reflexivity|]. inversion F as [|? ? Fp Fl]; subst. destruct p as [[raw text]|]; [|contradiction]. destruct (plain_blank _ _ Fp) as [N R].
  cbn [text_of flat_map] in B. fold (text_of l) in B. rewrite blank_app in B. apply andb_prop in B as [B1 B2]. cbn [fold_left code_piece]. rewrite blank_piece by (try assumption; congruence).
  destruct (IH _ e b f (k + List.length text) Fl B2 (blank_good t e b text W T B1) T) as (k' & E). exists k'. rewrite E. cbn [text_of flat_map]. fold (text_of l). rewrite put_text_app. reflexivity.
Qed.
(* other text in a table, after white space of the same run *)
Lemma taken_back : forall t e b w, wf t (e :: b) -> table_part e = true -> w <> [] -> blank w = true -> take_back (put_text (Last_in (oid e)) w t) (oid e) (List.length w) = (t, w).
Proof.
  intros t e b w W T N B. pose proof (w_open _ _ W e (or_introl eq_refl)) as L. rewrite <- append_put by assumption. rewrite append_snoc. unfold take_back. rewrite ks_same by exact L.
  assert (forall s, In s (txts (ks t (oid e))) -> s <> [] /\ blank s = true) as X by (intros s; apply (w_texts _ _ W e s (or_introl eq_refl) T)).
  destruct (last_case (ks t (oid e))) as [E|[(r & d & E)|(r & d & E)]]; rewrite E in *.
  - rewrite snoc_nil. cbn [rev app]. rewrite B, Nat.sub_diag. cbn [firstn skipn app]. rewrite set_set, <- E, set_self. reflexivity.
  - rewrite snoc_txt, rev_app_distr. cbn [rev app]. destruct (X d) as [Nd Bd]; [rewrite txts_app; apply in_or_app; right; left; reflexivity|].
    rewrite blank_app, Bd, B. cbn [andb]. rewrite app_length. replace (List.length d + List.length w - List.length w) with (List.length d) by lia.
    rewrite firstn_app, Nat.sub_diag, firstn_all, skipn_app, Nat.sub_diag, skipn_all. cbn [firstn skipn app]. rewrite app_nil_r, rev_involutive, set_set. destruct d as [|c d]; [contradiction Nd; reflexivity|]. rewrite <- E, set_self. reflexivity.
  - rewrite snoc_nod, rev_app_distr. cbn [rev app]. rewrite B, Nat.sub_diag. cbn [firstn skipn app]. rewrite app_nil_r, rev_involutive, set_set, <- E, set_self. reflexivity.
Qed.
Lemma foster_text : forall t e b x, wf t (e :: b) -> table_part e = true -> x <> [] ->
  exists q i, foster_for None t (e :: b) = Some (q, i) /\ insert_at t q i (Txt x) = put_text (foster_place t (e :: b)) x t.
Proof.
  intros t e b x W T N. destruct (place_found t e b None W T eq_refl) as (a & r & A & L & F & _). eexists _, _. split; [exact F|]. rewrite (insert_text_at _ _ _ _ _ A), (put_text_at _ _ _ _ _ L A N). reflexivity.
Qed.
Lemma foster_good : forall t e b x, wf t (e :: b) -> table_part e = true -> wf (put_text (foster_place t (e :: b)) x t) (e :: b).
Proof.
  intros t e b x W T. destruct (place_found t e b None W T eq_refl) as (a & r & A & L & _ & O). apply (put_good _ _ _ _ _ _ W A L). intros e' I T' E. exfalso. exact (O e' I T' E).
Qed.
Lemma dark_piece : forall raw text t e b w, text <> [] -> blank text = false -> blank w = true -> wf t (e :: b) -> table_part e = true ->
  append_text (raw, text) (Fst (put_text (Last_in (oid e)) w t) (e :: b) [] (List.length w)) = Fst (put_text (foster_place t (e :: b)) (w ++ text) t) (e :: b) [] 0.
Proof.
  intros raw text t e b w N D B W T. unfold append_text. cbn [tr open todo pend]. pose proof (part_eq e b (w_names _ _ W e (or_introl eq_refl))) as PE. rewrite T in PE. rewrite PE, D.
  rewrite (part_current e b (w_names _ _ W e (or_introl eq_refl)) T).
  destruct text as [|c text]; [contradiction N; reflexivity|].
  assert ((if 0 <? List.length w then take_back (put_text (Last_in (oid e)) w t) (oid e) (List.length w) else (put_text (Last_in (oid e)) w t, [])) = (t, w)) as ->.
  { destruct w as [|d w]; [reflexivity|]. cbn [List.length]. change (0 <? Datatypes.S (List.length w)) with true. cbv iota. apply (taken_back t e b (d :: w)); [exact W|exact T|discriminate|exact B]. }
  destruct (foster_text t e b (w ++ c :: text) W T) as (q & i & F & I); [destruct w; discriminate|]. rewrite F, I. reflexivity.
Qed.
Lemma run_dark : forall l t e b, Forall plain_piece l -> blanks_first true l = true -> wf t (e :: b) -> table_part e = true ->
  fold_left code_piece l (Fst t (e :: b) [] 0) = Fst (put_text (foster_place t (e :: b)) (text_of l) t) (e :: b) [] 0.
Proof.
  induction l as [|p l IH]; intros t e b F B W T; [reflexivity|]. inversion F as [|? ? Fp Fl]; subst. destruct p as [[raw text]|]; [|contradiction]. destruct (plain_blank _ _ Fp) as [N R].
  cbn [blanks_first] in B. destruct (forallb white text) eqn:D; [discriminate B|]. cbn [fold_left code_piece].
  pose proof (dark_piece raw text t e b [] N) as P. cbn [List.length app] in P. change (put_text (Last_in (oid e)) [] t) with t in P. specialize (P (eq_trans (blank_white text) D) eq_refl W T).
  etransitivity; [apply f_equal; exact P|].
  rewrite IH; [|exact Fl|exact B|exact (foster_good t e b text W T)|exact T]. rewrite place_put. cbn [text_of flat_map]. fold (text_of l). rewrite put_text_app. reflexivity.
Qed.
Lemma run_table : forall l t e b w, Forall plain_piece l -> blanks_first false l = true -> wf t (e :: b) -> table_part e = true -> blank w = true ->
  exists k, fold_left code_piece l (Fst (put_text (Last_in (oid e)) w t) (e :: b) [] (List.length w)) =
    Fst (put_text (if blank (text_of l) then Last_in (oid e) else foster_place t (e :: b)) (w ++ text_of l) t) (e :: b) [] k.
Proof.
  induction l as [|p l IH]; intros t e b w F B W T Bw; [exists (List.length w); cbn [text_of flat_map fold_left]; rewrite app_nil_r; reflexivity|]. inversion F as [|? ? Fp Fl]; subst. destruct p as [[raw text]|]; [|contradiction]. destruct (plain_blank _ _ Fp) as [N R].
  cbn [blanks_first] in B. cbn [fold_left code_piece text_of flat_map]. fold (text_of l). rewrite blank_app. destruct (forallb white text) eqn:D.
  - rewrite <- blank_white in D. rewrite blank_piece; [|exact N|congruence|exact D|exact (blank_good t e b w W T Bw)|exact T]. rewrite <- put_text_app, <- app_length.
    destruct (IH t e b (w ++ text) Fl B W T) as (k & E); [rewrite blank_app, Bw, D; reflexivity|]. exists k. rewrite E, D, <- app_assoc. reflexivity.
  - rewrite <- blank_white in D. rewrite dark_piece by assumption. rewrite (run_dark l _ e b Fl B (foster_good t e b (w ++ text) W T) T). exists 0. rewrite place_put, D. cbn [andb]. rewrite !put_text_app. reflexivity.
Qed.

(* ---- a run ---- *)
Lemma run_same : forall l s, good s -> Forall formatting_name (closed_formatting s) -> ok_run l s ->
  exists k, fold_left code_piece l (to_code s 0) = to_code (characters (text_of l) s) k /\ good (characters (text_of l) s) /\ Forall formatting_name (closed_formatting (characters (text_of l) s)).
Proof.
  intros l s W FF (F & O). unfold good in W. destruct (stack_of s) as [|e b] eqn:S; [contradiction|]. destruct O as [OT OF]. unfold characters. rewrite S. unfold to_code at 1. rewrite S.
  destruct (closed_formatting s) as [|f fs] eqn:C.
  - destruct (table_part e) eqn:T.
    + destruct (OT eq_refl) as [B _]. specialize (B eq_refl). cbn [andb]. rewrite <- blank_white. destruct (run_table l (tree_of s) e b [] F B W T eq_refl) as (k & E). exists k. cbn [List.length app] in E. change (put_text (Last_in (oid e)) [] (tree_of s)) with (tree_of s) in E. rewrite E.
      destruct (blank (text_of l)) eqn:D.
      * rewrite chars, S, C. cbn [appropriate_place andb]. pose proof (part_current e b (w_names _ _ W e (or_introl eq_refl)) T) as P. cbn [current_parent] in P. rewrite P. split; [reflexivity|]. split; [exact (blank_good _ e b _ W T D)|constructor].
      * rewrite body_chars by exact C. rewrite chars, S, C. cbn [appropriate_place andb]. rewrite T. split; [reflexivity|]. split; [exact (foster_good _ e b _ W T)|constructor].
    + cbn [andb]. rewrite body_chars by exact C. rewrite chars, S, C. cbn [appropriate_place]. rewrite T. cbn [andb]. destruct (run_out l (tree_of s) e b 0 F W T) as (k & E). exists k. rewrite E. split; [reflexivity|]. split; [exact (out_good _ e b _ W T)|constructor].
  - assert (good s) as W' by (unfold good; rewrite S; exact W).
    assert (f :: fs <> []) as NF by discriminate. destruct (OF NF) as [OC OH]. unfold one_of, in_strs in OC. cbn [map existsb] in OC. destruct (str_eqb (oname e) (u "caption")) eqn:OC1; [discriminate OC|]. cbn [orb] in OC. destruct (str_eqb (oname e) (u "template")) eqn:OC2; [discriminate OC|].
    assert (ocontent e = None) as Nc. { destruct (ocontent e) eqn:X; [|reflexivity]. destruct (content_template e _ (w_names _ _ W e (or_introl eq_refl)) X) as [Y _]. rewrite Y, str_eqb_refl in OC2. discriminate OC2. }
    assert (in_strs (oname e) targets = table_part e) as Tn. { unfold table_part. rewrite OH. reflexivity. }
    destruct (table_part e && forallb white (text_of l)) eqn:D.
    + apply andb_prop in D as [T B]. destruct (run_blank l (tree_of s) e b (f :: fs) 0 F) as (k & E); [rewrite blank_white; exact B|exact W|exact T|]. exists k. rewrite E, chars, S, C. cbn [appropriate_place andb]. rewrite Nc. split; [reflexivity|].
      split; [exact (blank_good _ e b _ W T (eq_trans (blank_white _) B))|exact FF].
    + destruct l as [|p l].
      { exists 0. cbn [fold_left text_of flat_map]. split; [unfold to_code; rewrite S, C; reflexivity|]. split; [exact W'|rewrite C; exact FF]. }
      pose proof F as F0. inversion F as [|? ? Fp Fl]; subst. destruct p as [[raw text]|]; [|contradiction]. destruct (plain_blank _ _ Fp) as [N R].
      assert (text_of (Some (raw, text) :: l) <> []) as NT by (cbn [text_of flat_map]; destruct text; [contradiction N; reflexivity|discriminate]).
      rewrite body_chars_reopen by exact NT. cbn [fold_left code_piece].
      assert (table_part e && blank raw = false) as G.
      { destruct (table_part e) eqn:T; [|reflexivity]. cbn [andb] in *. destruct (OT eq_refl) as [_ B]. destruct (B NF) as [X|X]; [congruence|]. cbn [starts_blank] in X. rewrite R, blank_white. exact X. }
      assert (append_text (raw, text) (Fst (tree_of s) (e :: b) (f :: fs) 0) = append_text (raw, text) (to_code (reconstruct s) 0)) as ->.
      { destruct (reopen_same s 0) as [Rs _]; [rewrite C; exact FF|exact W'|]. unfold append_text at 1. cbn [tr open todo pend]. cbn [parent_name]. rewrite Nc, OC1, Tn, G. cbn [negb andb].
        assert (Fst (tree_of s) (e :: b) (f :: fs) 0 = to_code s 0) as -> by (unfold to_code; rewrite S, C; reflexivity). rewrite Rs. unfold append_text, to_code. cbn [tr open todo pend]. rewrite reconstruct_done. reflexivity. }
      destruct (reopen_same s 0) as [_ Wr]; [rewrite C; exact FF|exact W'|]. destruct (reconstruct_top s) as (e' & b' & S' & T'); [rewrite C; exact NF|rewrite C; exact FF|].
      pose proof (reconstruct_done s) as Dn. set (s1 := reconstruct s) in *. clearbody s1. unfold good in Wr. rewrite S' in Wr.
      destruct (run_out (Some (raw, text) :: l) (tree_of s1) e' b' 0 F0 Wr T') as (k & E). exists k. cbn [fold_left code_piece] in E. unfold to_code at 1. rewrite S', Dn, E, chars, S', Dn. cbn [appropriate_place]. rewrite T', andb_false_r.
      split; [reflexivity|]. split; [exact (out_good _ e' b' _ Wr T')|constructor].
Qed.

(* ---- histories ---- *)
Lemma comment_good : forall s, good s -> exists e b, stack_of s = e :: b /\ standard_event s Comment = State (set_ks (tree_of s ++ [Node [] (Some (current_parent (e :: b)))]) (current_parent (e :: b)) (ks (tree_of s) (current_parent (e :: b)) ++ [Nod (List.length (tree_of s))])) (stack_of s) (closed_formatting s) /\ good (standard_event s Comment) /\
  ks (tree_of s ++ [Node [] (Some (current_parent (e :: b)))]) (current_parent (e :: b)) = ks (tree_of s) (current_parent (e :: b)).
Proof.
  intros s W. unfold good in *. destruct (stack_of s) as [|e b] eqn:S; [destruct (w_some _ _ W eq_refl)|]. exists e, b. split; [reflexivity|]. pose proof (current_bound _ e b W) as L.
  assert (ks (tree_of s ++ [Node [] (Some (current_parent (e :: b)))]) (current_parent (e :: b)) = ks (tree_of s) (current_parent (e :: b))) as K by (rewrite ks_more; apply Nat.ltb_lt in L; rewrite L; reflexivity).
  cbn [standard_event]. rewrite S. cbn [appropriate_place andb put_node parent_of]. fold (current_parent (e :: b)). rewrite K. split; [reflexivity|]. split; [|reflexivity]. cbn [tree_of stack_of].
  apply (wf_node _ _ _ _ [] W); [rewrite app_nil_r; reflexivity|exact L].
Qed.
Lemma event_same : forall ev s k, good s -> Forall formatting_name (closed_formatting s) -> ok_event ev s ->
  exists k', code_event (to_code s k) ev = to_code (standard_event s ev) k' /\ good (standard_event s ev) /\ Forall formatting_name (closed_formatting (standard_event s ev)).
Proof.
  intros ev s k W F O. unfold code_event. change (cleared (to_code s k)) with (to_code s 0). destruct ev as [l|name html void hidden| |n|l|].
  - exact (run_same l s W F O).
  - exists 0. cbn [standard_event]. split; [exact (insert_same name html void hidden s 0 W O)|]. split; [exact (insert_good _ name html void hidden s W O)|]. rewrite insert_formatting. exact F.
  - exists 0. destruct (comment_good s W) as (e & b & S & E & G & K). split; [|split; [exact G|]]; [|rewrite E; exact F]. rewrite E. unfold to_code. cbn [tr open todo pend tree_of stack_of closed_formatting]. rewrite S, K. reflexivity.
  - exists 0. split; [reflexivity|]. split; [exact (wf_skip n _ _ W O)|exact F].
  - exists 0. split; [reflexivity|]. split; [exact W|exact O].
  - exists 0. destruct (reopen_same s 0 F W) as [A B]. split; [exact A|]. split; [exact B|]. cbn [standard_event]. rewrite reconstruct_done. constructor.
Qed.
Lemma run_events : forall es s k, good s -> Forall formatting_name (closed_formatting s) -> ok_events es s ->
  exists k', code_run es (to_code s k) = to_code (standard_run es s) k' /\ good (standard_run es s) /\ Forall formatting_name (closed_formatting (standard_run es s)).
Proof.
  induction es as [|ev es IH]; intros s k W F O; [exists k; auto|]. destruct O as [O Os]. unfold code_run, standard_run. cbn [fold_left]. destruct (event_same ev s k W F O) as (k' & E & W' & F'). rewrite E. exact (IH _ k' W' F' Os).
Qed.
Lemma begun_good : good begun.
Proof.
  unfold good, begun. cbn [tree_of stack_of]. constructor.
  - discriminate.
  - intros [|[|[|p]]] j H; cbn in H; try contradiction. destruct H as [<-|[]]. cbn. lia.
  - intros e [<-|[<-|[]]]; cbn; lia.
  - intros e c [<-|[<-|[]]] H; discriminate H.
  - repeat constructor; cbn; intuition discriminate.
  - intros e [<-|[<-|[]]]; (split; [intros _; reflexivity|]); split; intros H; try (vm_compute in H; discriminate H); contradiction H; reflexivity.
  - intros e [<-|[<-|[]]] H; vm_compute in H; discriminate H.
  - intros e s [<-|[<-|[]]] H; vm_compute in H; discriminate H.
  - cbn. repeat split; intros H; vm_compute in H; discriminate H.
Qed.
