(* Facts about the walker: what one pass over a node does, an inductive relation for the walk, fuel. *)
From Coq Require Import Lia.
From Verif Require Import Str StrFacts SerializerModel UrlModel CssModel SanModel.
Open Scope N_scope.

Lemma str_eqb_spec a b : reflect (a = b) (str_eqb a b).
Proof. destruct (str_eqb a b) eqn:E; constructor; [apply str_eqb_eq in E; exact E|apply str_eqb_neq in E; exact E]. Qed.
Lemma bind_ret_r {A} (x : res A) : bind x (fun a => Ok a []) = x.
Proof. destruct x; cbn [bind]; [rewrite app_nil_r|..]; reflexivity. Qed.
Lemma bind_assoc {A B C} (x : res A) (f : A -> res B) (g : B -> res C) : bind (bind x f) g = bind x (fun a => bind (f a) g).
Proof.
  destruct x as [a fs| |]; cbn [bind]; try reflexivity. destruct (f a) as [b gs| |]; cbn [bind]; try reflexivity.
  destruct (g b) as [c hs| |]; [rewrite app_assoc|..]; reflexivity.
Qed.
Lemma bind_nil {A B} (a : A) (f : A -> res B) : bind (Ok a []) f = f a.
Proof. cbn [bind]. destruct (f a); reflexivity. Qed.
Lemma bind_Ok {A B} (x : res A) (f : A -> res B) b fs :
  bind x f = Ok b fs -> exists a gs hs, x = Ok a gs /\ f a = Ok b hs /\ fs = (gs ++ hs)%list.
Proof.
  destruct x as [a gs| |]; cbn [bind]; try discriminate. destruct (f a) as [c hs| |] eqn:E; try discriminate.
  intros H. injection H as H1 H2. subst. exists a, gs, hs. auto.
Qed.

(* induction over trees *)
Section NodeInd.
Variable P : node -> Prop.
Hypothesis Hel : forall i name ns attrs ch tc, Forall P ch -> (forall l, tc = Some l -> Forall P l) -> P (El i name ns attrs ch tc).
Hypothesis Htx : forall i d, P (Tx i d).
Hypothesis Hcm : forall i d, P (Cm i d).
Hypothesis Hpi : forall i d, P (Pi i d).
Hypothesis Hdt : forall i d, P (Dt i d).
Hypothesis Hfr : forall i name ch, Forall P ch -> P (Fr i name ch).
Fixpoint node_ind2 (n : node) : P n :=
  let go := fix go (l : list node) : Forall P l := match l with [] => Forall_nil P | a :: r => Forall_cons a (node_ind2 a) (go r) end in
  match n with
  | El i name ns attrs ch tc =>
      Hel i name ns attrs ch tc (go ch)
        (match tc as t return forall l, t = Some l -> Forall P l with
         | None => fun l H => match H in _ = y return match y with Some _ => Forall P l | None => True end with eq_refl => I end
         | Some l0 => fun l H => match H in _ = y return match y with Some z => Forall P z | None => True end with eq_refl => go l0 end
         end)
  | Tx i d => Htx i d
  | Cm i d => Hcm i d
  | Pi i d => Hpi i d
  | Dt i d => Hdt i d
  | Fr i name ch => Hfr i name ch (go ch)
  end.
End NodeInd.

Section Facts.
Variable py : urllib.
Variable p : policy.
Notation run := (run py p). Notation walk := (walk py p). Notation decide := (decide p). Notation edit_attrs := (edit_attrs py p).

Definition final_attrs (i : info) (name : str) (attrs : attr_list) : res attr_list :=
  bind (if pol_strip_invisible p then Ok (fst (strip_attrs i attrs)) (snd (strip_attrs i attrs)) else Ok attrs []) (fun a =>
  bind (edit_attrs i name a) (fun a =>
  Ok (match force_link_rel p with [] => a | _ => merge_rel (force_link_rel p) name a end) [])).

Lemma run_tail idx ts nf i name ns attrs ch tc : (forall t, In t ts -> t = WComments \/ t = WDoctype) ->
  run idx ts nf (El i name ns attrs ch tc) = Ok (Stay (El i name ns attrs ch tc)) [].
Proof.
  revert idx. induction ts as [|t ts IH]; intros idx H; cbn [SanModel.run]; [reflexivity|].
  destruct (H t (or_introl eq_refl)) as [-> | ->]; apply IH; intros t' Ht; apply H; right; exact Ht.
Qed.
Lemma bind_ext {A B} (x : res A) (f g : A -> res B) : (forall a, f a = g a) -> bind x f = bind x g.
Proof. intros H. destruct x; cbn [bind]; [rewrite H|..]; reflexivity. Qed.

Lemma run_attrs idx nf i name ns attrs ch tc :
  run idx (skipn 2 (pipeline p)) nf (El i name ns attrs ch tc) =
  bind (final_attrs i name attrs) (fun a => Ok (Stay (El i name ns a ch tc)) []).
Proof.
  unfold final_attrs, pipeline. cbn [skipn app].
  assert (T : forall idx a,
    run idx (match force_link_rel p with [] => [] | _ => [WMerge] end ++ (if pol_drop_comments p then [WComments] else []) ++ (if pol_drop_doctype p then [WDoctype] else []))%list nf (El i name ns a ch tc)
    = Ok (Stay (El i name ns (match force_link_rel p with [] => a | _ => merge_rel (force_link_rel p) name a end) ch tc)) []).
  { intros ix a. destruct (force_link_rel p) eqn:Ef; cbn [app SanModel.run]; rewrite run_tail; try rewrite Ef; try reflexivity;
    intros t Ht; rewrite in_app_iff in Ht; destruct (pol_drop_comments p), (pol_drop_doctype p); cbn in Ht; intuition. }
  assert (W : forall idx a,
    run idx (WAttrs :: (match force_link_rel p with [] => [] | _ => [WMerge] end ++ (if pol_drop_comments p then [WComments] else []) ++ (if pol_drop_doctype p then [WDoctype] else []))%list) nf (El i name ns a ch tc)
    = bind (bind (edit_attrs i name a) (fun a => Ok (match force_link_rel p with [] => a | _ => merge_rel (force_link_rel p) name a end) [])) (fun a => Ok (Stay (El i name ns a ch tc)) [])).
  { intros ix a. cbn [SanModel.run]. rewrite bind_assoc. apply bind_ext. intros b. rewrite T, bind_nil. reflexivity. }
  destruct (pol_strip_invisible p).
  - cbn [app].
    assert (S1 : forall r, run idx (WStrip :: r) nf (El i name ns attrs ch tc) =
       let '(a, fs) := strip_attrs i attrs in bind (Ok tt fs) (fun _ => run (S idx) r nf (El i name ns a ch tc))) by reflexivity.
    rewrite S1. destruct (strip_attrs i attrs) as [a fs]; cbn [fst snd]. rewrite bind_assoc.
    transitivity (bind (Ok tt fs) (fun _ : unit => bind (bind (edit_attrs i name a) (fun a => Ok (match force_link_rel p with [] => a | _ => merge_rel (force_link_rel p) name a end) [])) (fun a => Ok (Stay (El i name ns a ch tc)) []))).
    + apply bind_ext. intros _. apply W.
    + reflexivity.
  - cbn [app]. rewrite W. rewrite bind_nil. reflexivity.
Qed.

Lemma run_El m nf i name ns attrs ch tc : (m <= 1)%nat ->
  run m (skipn m (pipeline p)) nf (El i name ns attrs ch tc) =
  if Nat.eqb m 0 && nf then Ok (if unclosed_foreign (El i name ns attrs ch tc) then GoneAll else Gone)
                              [found (u "Unsafe tag '" ++ lower name ++ u "' (foreign namespace)")%list i]
  else match decide 1 i name ns attrs ch tc with
       | Some o => o
       | None => bind (final_attrs i name attrs) (fun a => Ok (Stay (El i name ns a ch tc)) [])
       end.
Proof.
  intros Hm. assert (E1 : run 1 (skipn 1 (pipeline p)) nf (El i name ns attrs ch tc) =
    match decide 1 i name ns attrs ch tc with
    | Some o => o
    | None => bind (final_attrs i name attrs) (fun a => Ok (Stay (El i name ns a ch tc)) [])
    end).
  { rewrite <- (run_attrs 2 nf). reflexivity. }
  destruct m as [|[|m]]; [|exact E1|lia].
  destruct nf; [reflexivity|]. cbn [Nat.eqb andb]. rewrite <- E1. reflexivity.
Qed.

Lemma run_other idx ts nf n : (forall t, In t ts -> match t, n with
   | (WForeign | WDecide | WStrip | WAttrs | WMerge), El _ _ _ _ _ _ => False
   | WStrip, Tx _ _ => False | WComments, (Cm _ _ | Pi _ _) => False | WDoctype, Dt _ _ => False | _, _ => True end) ->
  run idx ts nf n = Ok (Stay n) [].
Proof.
  revert idx. induction ts as [|t ts IH]; intros idx H; cbn [SanModel.run]; [reflexivity|].
  pose proof (H t (or_introl eq_refl)) as Ht.
  assert (E : run (S idx) ts nf n = Ok (Stay n) []) by (apply IH; intros t' Ht'; apply H; right; exact Ht').
  destruct t, n; try contradiction; exact E.
Qed.
Lemma run_Fr m nf i name ch : run m (skipn m (pipeline p)) nf (Fr i name ch) = Ok (Stay (Fr i name ch)) [].
Proof. apply run_other. intros t _. destruct t; exact I. Qed.

Lemma skipn_app_le {A} m (l r : list A) : (m <= List.length l)%nat -> skipn m (l ++ r) = (skipn m l ++ r)%list.
Proof. intros H. rewrite skipn_app. replace (m - List.length l)%nat with 0%nat by lia. reflexivity. Qed.
Lemma run_skip idx ts r nf n : (forall t, In t ts -> match t, n with
   | (WForeign | WDecide | WStrip | WAttrs | WMerge), El _ _ _ _ _ _ => False
   | WStrip, Tx _ _ => False | WComments, (Cm _ _ | Pi _ _) => False | WDoctype, Dt _ _ => False | _, _ => True end) ->
  run idx (ts ++ r) nf n = run (idx + List.length ts) r nf n.
Proof.
  revert idx. induction ts as [|t ts IH]; intros idx H; cbn [SanModel.run app List.length]; [rewrite Nat.add_0_r; reflexivity|].
  pose proof (H t (or_introl eq_refl)) as Ht. rewrite Nat.add_succ_r. change (S (idx + List.length ts)) with (S idx + List.length ts)%nat.
  rewrite <- (IH (S idx)) by (intros t' Ht'; apply H; right; exact Ht').
  destruct t, n; try contradiction; reflexivity.
Qed.

Definition front : list wt :=
  ([WForeign; WDecide] ++ (if pol_strip_invisible p then [WStrip] else []) ++ [WAttrs] ++ (match force_link_rel p with [] => [] | _ => [WMerge] end))%list.
Lemma pipeline_front : pipeline p = (front ++ (if pol_drop_comments p then [WComments] else []) ++ (if pol_drop_doctype p then [WDoctype] else []))%list.
Proof. unfold pipeline, front. rewrite <- !app_assoc. reflexivity. Qed.
Lemma in_skipn {A} m (l : list A) x : In x (skipn m l) -> In x l.
Proof. intros H. rewrite <- (firstn_skipn m l). apply in_or_app. right. exact H. Qed.
Lemma front_len : (2 <= List.length front)%nat.
Proof. unfold front. rewrite app_length. cbn [List.length]. lia. Qed.

Lemma front_in t m : In t (skipn m front) -> t <> WComments /\ t <> WDoctype.
Proof.
  intros Ht. apply in_skipn in Ht. unfold front in Ht.
  destruct (pol_strip_invisible p), (force_link_rel p); cbn [In app] in Ht; intuition (subst; discriminate).
Qed.
Lemma run_comment m nf n i d : (m <= 1)%nat -> n = Cm i d \/ n = Pi i d ->
  run m (skipn m (pipeline p)) nf n =
  if pol_drop_comments p then
    match disallowed_tag_handling p with
    | TEscape => Ok (EscComment (Tx (mark_info (S (List.length front)) no_info) (u "<!--" ++ d ++ u "-->")%list)) []
    | _ => Ok Gone [found (u "Dropped comment") i]
    end
  else Ok (Stay n) [].
Proof.
  intros Hm Hn. rewrite pipeline_front, skipn_app_le by (pose proof front_len; lia).
  rewrite run_skip.
  2:{ intros t Ht. apply front_in in Ht. destruct Hn as [-> | ->], t; try exact I; destruct Ht as [? ?]; congruence. }
  rewrite skipn_length. replace (m + (List.length front - m))%nat with (List.length front) by (pose proof front_len; lia).
  destruct (pol_drop_comments p); cbn [app].
  - destruct Hn as [-> | ->]; reflexivity.
  - apply run_other. intros t Ht. destruct (pol_drop_doctype p); [destruct Ht as [<-|[]]|destruct Ht]. destruct Hn as [-> | ->]; exact I.
Qed.
Lemma run_doctype m nf i d : (m <= 1)%nat ->
  run m (skipn m (pipeline p)) nf (Dt i d) = if pol_drop_doctype p then Ok Gone [found (u "Dropped doctype") i] else Ok (Stay (Dt i d)) [].
Proof.
  intros Hm. rewrite pipeline_front, skipn_app_le by (pose proof front_len; lia).
  rewrite run_skip.
  2:{ intros t Ht. apply front_in in Ht. destruct t; try exact I; destruct Ht as [? ?]; congruence. }
  destruct (pol_drop_comments p), (pol_drop_doctype p); reflexivity.
Qed.
(* text is kept, with its invisible characters stripped unless the text was made from a comment *)
Lemma run_text m nf i d : exists d' fs,
  run m (skipn m (pipeline p)) nf (Tx i d) = Ok (Stay (Tx i d')) fs /\ (d' = d /\ fs = [] \/ d' = strip_invisible d) /\
  ((m <= 2)%nat -> d' = (if pol_strip_invisible p then strip_invisible d else d) /\ fs = (if str_eqb d' d then [] else [found (u "Stripped invisible Unicode from text node") i])).
Proof.
  assert (T : forall idx ts d, ~ In WStrip ts -> run idx ts nf (Tx i d) = Ok (Stay (Tx i d)) []).
  { intros idx ts d0 H. apply run_other. intros t Ht. destruct t; try exact I. exact (H Ht). }
  unfold pipeline. destruct (pol_strip_invisible p) eqn:Es.
  - set (tl := (match force_link_rel p with [] => [] | _ => [WMerge] end ++ (if pol_drop_comments p then [WComments] else []) ++ (if pol_drop_doctype p then [WDoctype] else []))%list).
    assert (Htl : ~ In WStrip (WAttrs :: tl)).
    { subst tl. destruct (force_link_rel p), (pol_drop_comments p), (pol_drop_doctype p); cbn; intuition discriminate. }
    assert (E2 : run 2 (WStrip :: WAttrs :: tl) nf (Tx i d) =
       Ok (Stay (Tx i (strip_invisible d))) (if str_eqb (strip_invisible d) d then [] else [found (u "Stripped invisible Unicode from text node") i])).
    { cbn [SanModel.run]. destruct (str_eqb_spec (strip_invisible d) d) as [E|E].
      - rewrite E. apply (T 4%nat tl). intros H. apply Htl. right. exact H.
      - cbn [bind]. rewrite (T 4%nat tl) by (intros H; apply Htl; right; exact H). cbn [app]. reflexivity. }
    destruct m as [|[|[|m]]].
    + exists (strip_invisible d), (if str_eqb (strip_invisible d) d then [] else [found (u "Stripped invisible Unicode from text node") i]). split; [exact E2|auto].
    + exists (strip_invisible d), (if str_eqb (strip_invisible d) d then [] else [found (u "Stripped invisible Unicode from text node") i]). split; [exact E2|auto].
    + exists (strip_invisible d), (if str_eqb (strip_invisible d) d then [] else [found (u "Stripped invisible Unicode from text node") i]). split; [exact E2|auto].
    + exists d, []. split; [|split; [auto|lia]]. cbn [app skipn]. apply T. intros H. apply Htl. eapply in_skipn. exact H.
  - exists d, []. split; [|split; [auto|]].
    + apply T. intros H. apply in_skipn in H. destruct (force_link_rel p), (pol_drop_comments p), (pol_drop_doctype p); cbn in H; intuition discriminate.
    + intros _. split; [reflexivity|]. rewrite str_eqb_refl. reflexivity.
Qed.

(* ---------------- the walk as a relation ---------------- *)
Inductive Walks : bool -> bool -> list node -> list node -> list node -> list finding -> Prop :=
| W_nil doc ctx done : Walks doc ctx done [] done []
| W_gone doc ctx done n rest out fs gs :
    run (mark (info_of n)) (skipn (mark (info_of n)) (pipeline p)) (ctx || foreign_here n) n = Ok Gone fs ->
    Walks doc ctx done rest out gs -> Walks doc ctx done (n :: rest) out (fs ++ gs)
| W_goneall doc ctx done n rest fs :
    run (mark (info_of n)) (skipn (mark (info_of n)) (pipeline p)) (ctx || foreign_here n) n = Ok GoneAll fs ->
    Walks doc ctx done (n :: rest) done fs
| W_repl doc ctx done n rest l out fs gs :
    run (mark (info_of n)) (skipn (mark (info_of n)) (pipeline p)) (ctx || foreign_here n) n = Ok (Repl l) fs ->
    Walks doc ctx done (l ++ rest) out gs -> Walks doc ctx done (n :: rest) out (fs ++ gs)
| W_esc1 ctx done n rest t done' out fs gs :
    run (mark (info_of n)) (skipn (mark (info_of n)) (pipeline p)) (ctx || foreign_here n) n = Ok (EscComment t) fs ->
    insert_first (insert_html t) done = Some done' ->
    Walks true ctx done' rest out gs -> Walks true ctx done (n :: rest) out (fs ++ gs)
| W_esc2 ctx done n rest t rest' out fs gs :
    run (mark (info_of n)) (skipn (mark (info_of n)) (pipeline p)) (ctx || foreign_here n) n = Ok (EscComment t) fs ->
    insert_first (insert_html t) done = None ->
    insert_first (insert_html t) rest = Some rest' ->
    Walks true ctx done rest' out gs -> Walks true ctx done (n :: rest) out (fs ++ gs)
| W_esc3 doc ctx done n rest t out fs gs :
    run (mark (info_of n)) (skipn (mark (info_of n)) (pipeline p)) (ctx || foreign_here n) n = Ok (EscComment t) fs ->
    Walks doc ctx done (t :: rest) out gs -> Walks doc ctx done (n :: rest) out (fs ++ gs)
| W_el doc ctx done n rest i name ns attrs ch tc ch' tc' out fs gs hs ks :
    run (mark (info_of n)) (skipn (mark (info_of n)) (pipeline p)) (ctx || foreign_here n) n = Ok (Stay (El i name ns attrs ch tc)) fs ->
    Walks false (ctx || foreign_here n) [] ch ch' gs ->
    WalksTc (ctx || foreign_here n) tc tc' hs ->
    Walks doc ctx (done ++ [El i name ns attrs ch' tc']) rest out ks -> Walks doc ctx done (n :: rest) out (fs ++ gs ++ hs ++ ks)
| W_fr doc ctx done n rest i name ch ch' out fs gs ks :
    run (mark (info_of n)) (skipn (mark (info_of n)) (pipeline p)) (ctx || foreign_here n) n = Ok (Stay (Fr i name ch)) fs ->
    Walks (str_eqb name (u "#document")) (ctx || foreign_here n) [] ch ch' gs ->
    Walks doc ctx (done ++ [Fr i name ch']) rest out ks -> Walks doc ctx done (n :: rest) out (fs ++ gs ++ ks)
| W_leaf doc ctx done n rest n' out fs gs :
    run (mark (info_of n)) (skipn (mark (info_of n)) (pipeline p)) (ctx || foreign_here n) n = Ok (Stay n') fs ->
    match n' with El _ _ _ _ _ _ | Fr _ _ _ => False | _ => True end ->
    Walks doc ctx (done ++ [n']) rest out gs -> Walks doc ctx done (n :: rest) out (fs ++ gs)
with WalksTc : bool -> option (list node) -> option (list node) -> list finding -> Prop :=
| Wt_none ctx : WalksTc ctx None None []
| Wt_some ctx l l' fs : Walks false ctx [] l l' fs -> WalksTc ctx (Some l) (Some l') fs.
Scheme Walks_ind2 := Induction for Walks Sort Prop with WalksTc_ind2 := Induction for WalksTc Sort Prop.

Lemma walk_Walks k : forall doc ctx done pending out fs, walk k doc ctx done pending = Ok out fs -> Walks doc ctx done pending out fs.
Proof.
  induction k as [|k IH]; intros doc ctx done pending out fs H; [discriminate H|].
  destruct pending as [|n rest]; cbn [SanModel.walk] in H.
  { injection H as H1 H2. subst. constructor. }
  apply bind_Ok in H. destruct H as (o & gs & hs & R & H & ->). destruct o as [n' | | | l | t].
  - destruct n' as [i name ns attrs ch tc | i d | i d | i d | i d | i name ch].
    + apply bind_Ok in H. destruct H as (ch' & g1 & g2 & H1 & H2 & ->).
      apply bind_Ok in H2. destruct H2 as (tc' & g3 & g4 & H2 & H3 & ->).
      eapply W_el; [exact R|apply IH; exact H1| |apply IH; exact H3].
      destruct tc as [l|]; [|injection H2 as E1 E2; subst; constructor].
      apply bind_Ok in H2. destruct H2 as (l' & g5 & g6 & H2 & H4 & ->). injection H4 as E1 E2. subst. rewrite app_nil_r. constructor. apply IH. exact H2.
    + eapply W_leaf; [exact R|exact I|apply IH; exact H].
    + eapply W_leaf; [exact R|exact I|apply IH; exact H].
    + eapply W_leaf; [exact R|exact I|apply IH; exact H].
    + eapply W_leaf; [exact R|exact I|apply IH; exact H].
    + apply bind_Ok in H. destruct H as (ch' & g1 & g2 & H1 & H2 & ->).
      eapply W_fr; [exact R|apply IH; exact H1|apply IH; exact H2].
  - eapply W_gone; [exact R|apply IH; exact H].
  - apply IH in H. inversion H; subst. rewrite app_nil_r. apply W_goneall. exact R.
  - eapply W_repl; [exact R|apply IH; exact H].
  - destruct doc.
    + destruct (insert_first (insert_html t) done) as [done'|] eqn:Ed.
      * eapply W_esc1; [exact R|exact Ed|apply IH; exact H].
      * destruct (insert_first (insert_html t) rest) as [rest'|] eqn:Er.
        -- eapply W_esc2; [exact R|exact Ed|exact Er|apply IH; exact H].
        -- eapply W_esc3; [exact R|apply IH; exact H].
    + eapply W_esc3; [exact R|apply IH; exact H].
Qed.
End Facts.
