(* C45: escaped text, code spans, fences *)
From Coq Require Import Lia ZifyBool ZifyN ZifyNat.
From Verif Require Import Str StrFacts SerializerModel MdModel MdSpec.
From Verif Require SelNodeProofs.
Open Scope list_scope. Open Scope N_scope.

(* ---------- escaped text ---------- *)
Lemma displays_app a x b y : displays a x -> displays b y -> displays (a ++ b) (x ++ y).
Proof. induction 1; intros Hb; cbn [app]; [exact Hb|apply DChar|apply DEscaped|rewrite <- app_assoc; apply DAmp|rewrite <- app_assoc; apply DLt]; auto. Qed.
Lemma displays_one c : ~ In c [10; 13] -> displays (escape_char c) [c].
Proof.
  intros Nc. unfold escape_char. destruct (N.eqb_spec c 38) as [->|N38]; [apply (DAmp [] []); constructor|]. destruct (N.eqb_spec c 60) as [->|N60]; [apply (DLt [] []); constructor|].
  destruct (mem c (u "\`*_[]")) eqn:M.
  - apply StrFacts.mem_In in M. apply DEscaped; [|constructor]. cbn in M. repeat (destruct M as [<-|M]; [reflexivity|]). destruct M.
  - apply DChar; [|constructor]. intros I. assert (~ In c (u "\`*_[]")) as K by (intros J; apply StrFacts.mem_In in J; congruence). cbn in *. intuition congruence.
Qed.
Lemma displays_text s : ~ In 10 s -> ~ In 13 s -> displays (escape_text s) s.
Proof.
  induction s as [|c s IH]; intros N1 N2; [constructor|]. change (escape_text (c :: s)) with (escape_char c ++ escape_text s). apply (displays_app _ [c] _ s); [apply displays_one; intros [<-|[<-|[]]]; [apply N1|apply N2]; left; reflexivity|apply IH; intros I; [apply N1|apply N2]; right; exact I].
Qed.

(* ---------- runs of backticks ---------- *)
Lemma longest_ge l r s : (l <= longest_run l r s)%nat.
Proof.
  revert l r; induction s as [|c s IH]; intros l r; cbn [longest_run]; [lia|]. destruct (c =? 96); [|apply IH]. destruct (l <? S r)%nat eqn:E; [etransitivity; [|apply IH]; lia|apply IH].
Qed.
Lemma longest_here m : forall l r q, (r <= l)%nat -> (r + m <= longest_run l r (repeat 96%N m ++ q))%nat.
Proof.
  induction m as [|m IH]; intros l r q H; [rewrite Nat.add_0_r; etransitivity; [exact H|apply longest_ge]|]. cbn [repeat app longest_run]. change (96 =? 96) with true. cbv iota. rewrite Nat.add_succ_r, <- Nat.add_succ_l. apply IH. destruct (l <? S r)%nat eqn:E; lia.
Qed.
Lemma longest_run_spec m p : forall l r q, (r <= l)%nat -> (m <= longest_run l r (p ++ repeat 96%N m ++ q))%nat.
Proof.
  induction p as [|c p IH]; intros l r q H; [pose proof (longest_here m l r q H); cbn [app]; lia|]. cbn [app longest_run]. destruct (c =? 96); apply IH; [destruct (l <? S r)%nat eqn:E; lia|lia].
Qed.
Lemma no_long_run s m : (longest_run 0 0 s < m)%nat -> forall p q, s <> p ++ repeat 96%N m ++ q.
Proof. intros H p q ->. pose proof (longest_run_spec m p 0 0 q (le_n 0)). lia. Qed.

(* ---------- splitlines ---------- *)
Lemma splitlines_no acc s : forallb (fun c => negb (line_break c)) acc = true -> forall l, In l (splitlines_go acc s) -> forall c, In c l -> line_break c = false.
Proof.
  revert acc. remember (List.length s) as n eqn:En. assert (Ln : (List.length s <= n)%nat) by lia. clear En. revert s Ln. induction n as [|n IH]; intros s Ln acc Ha l Il c Ic.
  - destruct s; [|cbn in Ln; lia]. cbn [splitlines_go] in Il. destruct acc as [|a acc]; [destruct Il|]. destruct Il as [<-|[]]. rewrite forallb_forall in Ha. apply in_rev in Ic. specialize (Ha c Ic). destruct (line_break c); [discriminate Ha|reflexivity].
  - destruct s as [|x s]; [apply (IH [] ltac:(cbn; lia) acc Ha l Il c Ic)|]. cbn [splitlines_go] in Il. cbn [List.length] in Ln. assert (Hr : forall c, In c (rev acc) -> line_break c = false).
    { intros y Iy. rewrite forallb_forall in Ha. apply in_rev in Iy. specialize (Ha y Iy). destruct (line_break y); [discriminate Ha|reflexivity]. }
    destruct ((x =? 13) && starts [10] s).
    + destruct Il as [<-|Il]; [apply Hr; exact Ic|]. destruct s as [|y s]; [destruct Il|]. cbn [List.length] in Ln. apply (IH s ltac:(lia) [] eq_refl l Il c Ic).
    + destruct (line_break x) eqn:B; [destruct Il as [<-|Il]; [apply Hr; exact Ic|apply (IH s ltac:(lia) [] eq_refl l Il c Ic)]|]. apply (IH s ltac:(lia) (x :: acc)) with (l := l); [cbn [forallb]; rewrite B; exact Ha|exact Il|exact Ic].
Qed.
Lemma join_no (P : N -> Prop) sep l : (forall c, In c sep -> P c) -> (forall x, In x l -> forall c, In c x -> P c) -> forall c, In c (join sep l) -> P c.
Proof.
  intros Hs. induction l as [|x l IH]; intros Hl c I; [destruct I|]. cbn [join] in I. destruct l as [|y l]; [apply (Hl x); [left; reflexivity|exact I]|]. apply in_app_or in I as [I|I]; [apply (Hl x (or_introl eq_refl)); exact I|]. apply in_app_or in I as [I|I]; [apply Hs; exact I|]. apply IH; [intros z Iz; apply Hl; right; exact Iz|exact I].
Qed.
(* the content of a code span on one line *)
Definition one_line (s : str) : str := if mem 10 s || mem 13 s then join [32] (splitlines s) else s.
Lemma one_line_no s : ~ In 10 (one_line s) /\ ~ In 13 (one_line s).
Proof.
  unfold one_line. destruct (mem 10 s || mem 13 s) eqn:E.
  - assert (K : forall c, In c (join [32] (splitlines s)) -> line_break c = false).
    { apply (join_no (fun c => line_break c = false)); [intros c [<-|[]]; reflexivity|]. intros x Ix. exact (splitlines_no [] s eq_refl x Ix). }
    split; intros I; specialize (K _ I); discriminate K.
  - apply orb_false_iff in E as [E1 E2]. split; intros I; apply StrFacts.mem_In in I; congruence.
Qed.
(* line breaks become spaces, and nothing else changes *)
Definition solid_char (c : N) : bool := negb (line_break c || (c =? 32)).
Lemma splitlines_keep s : forall acc, flat_map (filter solid_char) (splitlines_go acc s) = filter solid_char (rev acc) ++ filter solid_char s.
Proof.
  remember (List.length s) as n eqn:En. assert (Ln : (List.length s <= n)%nat) by lia. clear En. revert s Ln. induction n as [|n IH]; intros s Ln acc.
  - destruct s; [|cbn in Ln; lia]. cbn [splitlines_go filter]. rewrite app_nil_r. destruct acc; [reflexivity|]. cbn [flat_map]. rewrite app_nil_r. reflexivity.
  - destruct s as [|x s]; [apply IH; cbn; lia|]. cbn [splitlines_go]. cbn [List.length] in Ln. destruct ((x =? 13) && starts [10] s) eqn:E.
    + apply andb_true_iff in E as [E1 E2]. apply N.eqb_eq in E1. subst x. apply starts_spec in E2 as [t ->]. cbn [app flat_map] in *. cbn [List.length] in Ln. rewrite IH by lia. reflexivity.
    + destruct (line_break x) eqn:B.
      * cbn [flat_map]. rewrite IH by lia. cbn [rev filter app]. unfold solid_char at 4. rewrite B. reflexivity.
      * rewrite IH by lia. cbn [rev]. rewrite filter_app, <- app_assoc. f_equal. change (x :: s) with ([x] ++ s) at 1. rewrite filter_app. reflexivity.
Qed.
Lemma join_keep l : filter solid_char (join [32] l) = flat_map (filter solid_char) l.
Proof. induction l as [|x l IH]; [reflexivity|]. cbn [join flat_map]. destruct l as [|y l]; [cbn [flat_map]; rewrite app_nil_r; reflexivity|]. rewrite !filter_app. rewrite IH. reflexivity. Qed.
Lemma one_line_keep s : filter solid_char (one_line s) = filter solid_char s.
Proof. unfold one_line. destruct (mem 10 s || mem 13 s); [|reflexivity]. rewrite join_keep. apply (splitlines_keep s []). Qed.

(* ---------- code spans ---------- *)
Lemma starts1 c s : starts [c] s = match s with x :: _ => c =? x | [] => false end.
Proof. destruct s as [|x s]; [reflexivity|]. cbn [starts]. destruct (c =? x); reflexivity. Qed.
Lemma ends1 c s : ends [c] s = starts [c] (rev s).
Proof. reflexivity. Qed.
Lemma pad_run s n p q : (1 <= n)%nat -> 32 :: s ++ [32] = p ++ repeat 96%N n ++ q -> exists p' q', s = p' ++ repeat 96%N n ++ q'.
Proof.
  intros Hn E. destruct p as [|c p]; [destruct n; [lia|]; discriminate E|]. cbn [app] in E. injection E as _ E. destruct q as [|x q] using rev_ind.
  - exfalso. rewrite app_nil_r in E. destruct n as [|n]; [lia|]. assert (R : repeat 96%N (S n) = repeat 96%N n ++ [96]) by (clear; induction n; [reflexivity|cbn [repeat app] in *; rewrite <- IHn; reflexivity]). rewrite R, app_assoc in E. apply app_inj_tail in E as [_ E]. discriminate E.
  - exists p, q. rewrite !app_assoc in E. apply app_inj_tail in E as [E _]. rewrite E, <- app_assoc. reflexivity.
Qed.
Lemma one_line_nil s : one_line s = [] -> forall c, In c s -> solid_char c = false.
Proof. intros E c I. pose proof (one_line_keep s) as K. rewrite E in K. cbn [filter] in K. destruct (solid_char c) eqn:Sc; [|reflexivity]. assert (J : In c (filter solid_char s)) by (apply filter_In; split; assumption). rewrite <- K in J. destruct J. Qed.
Lemma code_span_ok s r : one_line s <> [] -> starts [96] r = false ->
  code_span_at (code_span s ++ r) (if starts [96] (one_line s) || ends [96] (one_line s) then one_line s else code_content (one_line s)) r.
Proof.
  intros Nn Hr. destruct (one_line_no s) as [N10 N13]. unfold code_span. destruct s as [|s0 st]; [exfalso; apply Nn; reflexivity|]. fold (one_line (s0 :: st)). cbv zeta. set (w := one_line (s0 :: st)) in *. unfold backtick_fence. set (n := Nat.max 1 (longest_run 0 0 w + 1)). assert (Hn : (1 <= n)%nat) by lia. assert (Nr : forall p q, w <> p ++ repeat 96%N n ++ q) by (apply no_long_run; lia).
  destruct (starts [96] w || ends [96] w) eqn:Q.
  - exists n, (32 :: w ++ [32]). split; [exact Hn|]. split; [rewrite <- !app_assoc; cbn [app]; rewrite <- !app_assoc; reflexivity|]. split; [reflexivity|]. split; [unfold ends; cbn [rev]; rewrite rev_app_distr; reflexivity|]. split; [exact Hr|]. split; [discriminate|]. split; [intros p q E; exfalso; destruct (pad_run w n p q Hn E) as (p' & q' & E'); exact (Nr p' q' E')|].
    split; [intros [I|I]; [discriminate I|apply in_app_or in I as [I|[I|[]]]; [exact (N10 I)|discriminate I]]|]. split; [intros [I|I]; [discriminate I|apply in_app_or in I as [I|[I|[]]]; [exact (N13 I)|discriminate I]]|].
    unfold code_content. replace (ends [32] (32 :: w ++ [32])) with true by (unfold ends; cbn [rev]; rewrite rev_app_distr; reflexivity). assert (E : existsb (fun c => negb (c =? 32)) (32 :: w ++ [32]) = true).
    { apply existsb_exists. exists 96. split; [|reflexivity]. right. apply in_or_app. left. apply orb_true_iff in Q as [Q|Q]; [apply starts_spec in Q as [t ->]; left; reflexivity|apply SelNodeProofs.ends_spec in Q as [t ->]; apply in_or_app; right; left; reflexivity]. }
    rewrite E. cbn [starts andb tl]. change (32 =? 32) with true. cbn [andb]. rewrite removelast_last. reflexivity.
  - apply orb_false_iff in Q as [Q1 Q2]. exists n, w. split; [exact Hn|]. split; [rewrite <- !app_assoc; reflexivity|]. repeat (split; [assumption|]). split; [intros p q E; destruct (Nr p q E)|]. split; [exact N10|]. split; [exact N13|reflexivity].
Qed.

(* ---------- fenced blocks ---------- *)
Lemma lines_lf s : forall acc t, md_lines_go acc (s ++ 10 :: t) = md_lines_go acc (s ++ [10]) ++ md_lines_go [] t.
Proof.
  remember (List.length s) as n eqn:En. assert (Ln : (List.length s <= n)%nat) by lia. clear En. revert s Ln. induction n as [|n IH]; intros s Ln acc t.
  - destruct s; [|cbn in Ln; lia]. reflexivity.
  - destruct s as [|x s]; [apply IH; cbn; lia|]. cbn [List.length] in Ln. cbn [app md_lines_go]. destruct (x =? 10); [cbn [app]; f_equal; apply IH; lia|]. destruct (x =? 13); [|apply IH; lia]. destruct s as [|y s]; cbn [app].
    + change (10 =? 10) with true. reflexivity.
    + cbn [List.length] in Ln. destruct (y =? 10); cbn [app]; f_equal; [apply IH; lia|]. change (y :: s ++ 10 :: t) with ((y :: s) ++ 10 :: t). change (y :: s ++ [10]) with ((y :: s) ++ [10]). apply IH. cbn; lia.
Qed.
Lemma lines_plain s : ~ In 10 s -> ~ In 13 s -> forall acc, acc ++ s <> [] -> md_lines_go acc s = [rev acc ++ s].
Proof.
  induction s as [|c s IH]; intros N1 N2 acc Ha; cbn [md_lines_go]; [rewrite app_nil_r in *; destruct acc; [congruence|reflexivity]|]. destruct (N.eqb_spec c 10) as [->|]; [destruct (N1 (or_introl eq_refl))|]. destruct (N.eqb_spec c 13) as [->|]; [destruct (N2 (or_introl eq_refl))|].
  rewrite IH; [cbn [rev]; rewrite <- app_assoc; reflexivity|intros I; apply N1; right; exact I|intros I; apply N2; right; exact I|discriminate].
Qed.
Lemma lines_infix s : forall acc l, In l (md_lines_go acc s) -> exists p q, rev acc ++ s = p ++ l ++ q.
Proof.
  remember (List.length s) as n eqn:En. assert (Ln : (List.length s <= n)%nat) by lia. clear En. revert s Ln. induction n as [|n IH]; intros s Ln acc l Il.
  - destruct s; [|cbn in Ln; lia]. cbn [md_lines_go] in Il. destruct acc as [|a acc]; [destruct Il|]. destruct Il as [<-|[]]. exists [], []. reflexivity.
  - destruct s as [|x s]; [apply IH; [cbn; lia|exact Il]|]. cbn [List.length] in Ln. cbn [md_lines_go] in Il. assert (H0 : l = rev acc -> exists p q, rev acc ++ x :: s = p ++ l ++ q) by (intros ->; exists [], (x :: s); reflexivity).
    assert (H1 : forall y s', x :: s = y ++ s' -> (List.length s' <= n)%nat -> In l (md_lines_go [] s') -> exists p q, rev acc ++ x :: s = p ++ l ++ q).
    { intros y s' E L' I. destruct (IH s' L' [] l I) as (p & q & K). exists (rev acc ++ y ++ p), q. cbn [rev app] in K. rewrite <- !app_assoc, <- K, <- E. reflexivity. }
    destruct (x =? 10); [destruct Il as [<-|Il]; [apply H0; reflexivity|apply (H1 [x] s eq_refl ltac:(lia) Il)]|]. destruct (x =? 13).
    + destruct Il as [<-|Il]; [apply H0; reflexivity|]. destruct s as [|y s]; [destruct Il|]. cbn [List.length] in Ln. destruct (y =? 10); [apply (H1 [x; y] s eq_refl ltac:(lia) Il)|apply (H1 [x] (y :: s) eq_refl ltac:(cbn; lia) Il)].
    + destruct (IH s ltac:(lia) (x :: acc) l Il) as (p & q & K). exists p, q. rewrite <- K. cbn [rev]. rewrite <- app_assoc. reflexivity.
Qed.
