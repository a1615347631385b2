(* C45, C46: closure of the grammar of MdSpec; link destinations *)
From Coq Require Import Lia ZifyBool ZifyN ZifyNat.
From Verif Require Import Str StrFacts SerializerModel MdModel MdSpec MdProofs MdPre MdText MdTextFinal.
Open Scope list_scope. Open Scope N_scope.

Lemma starts1_app c a b : starts [c] (a ++ b) = match a with [] => starts [c] b | _ => starts [c] a end.
Proof. destruct a; [reflexivity|]. rewrite !starts1. reflexivity. Qed.
Lemma ends_one c a x : ends [c] (a ++ [x]) = (c =? x).
Proof. rewrite ends1, rev_app_distr. cbn [rev app]. rewrite starts1. reflexivity. Qed.
Lemma ends_app c a b : b <> [] -> ends [c] (a ++ b) = ends [c] b.
Proof. intros H. destruct (snoc_of b H) as (h & y & ->). rewrite app_assoc, !ends_one. reflexivity. Qed.
Lemma app_cut (x r a b : str) k : x ++ r = a ++ k :: b -> ~ In k x -> exists a', a = x ++ a' /\ r = a' ++ k :: b.
Proof.
  revert a. induction x as [|c x IH]; intros a E N; [exists a; split; [reflexivity|exact E]|]. destruct a as [|c' a]; cbn [app] in E.
  - injection E as -> _. destruct N. left. reflexivity.
  - injection E as <- E. destruct (IH a E ltac:(intros I; apply N; right; exact I)) as (a' & -> & ->). exists a'. split; reflexivity.
Qed.
Lemma app_last (x r s : str) c : x ++ r = s ++ [c] -> (r = [] /\ x = s ++ [c]) \/ exists r', r = r' ++ [c] /\ s = x ++ r'.
Proof.
  intros E. destruct r as [|y r] using rev_ind; [left; rewrite app_nil_r in E; split; [reflexivity|exact E]|]. right. rewrite app_assoc in E. apply app_inj_tail in E as [E ->]. exists r. split; [reflexivity|symmetry; exact E].
Qed.
(* ---------- code spans in context ---------- *)
Definition code_text (n : nat) (content : str) : str := repeat 96%N n ++ content ++ repeat 96%N n.
Lemma code_at src inner s : code_span_at src inner s -> exists x, src = x ++ s /\ x <> [] /\ ends [96] x = true /\ starts [96] x = true /\ ~ In 10 x /\ (forall r, starts [96] r = false -> code_span_at (x ++ r) inner r).
Proof.
  intros (n & content & H1 & -> & H3 & H4 & H5 & H6 & H7 & H8 & H9 & ->). exists (code_text n content). unfold code_text.
  assert (R : repeat 96%N n = repeat 96%N (n - 1) ++ [96]) by (destruct n; [lia|]; replace (S n - 1)%nat with n by lia; clear; induction n; [reflexivity|cbn [repeat app] in *; rewrite IHn at 1; reflexivity]).
  split; [rewrite <- !app_assoc; reflexivity|]. split; [destruct n; [lia|discriminate]|]. split; [rewrite R at 2; rewrite !app_assoc, ends_one; reflexivity|]. split; [destruct n; [lia|]; reflexivity|].
  split; [intros I; apply in_app_or in I as [I|I]; [apply repeat_spec in I; discriminate I|]; apply in_app_or in I as [I|I]; [exact (H8 I)|apply repeat_spec in I; discriminate I]|].
  intros r Hr. exists n, content. split; [exact H1|]. split; [rewrite <- !app_assoc; reflexivity|]. repeat (split; [assumption|]). reflexivity.
Qed.
(* ---------- closure ---------- *)
Lemma tail_no_lf d : link_tail d -> ~ In 10 d.
Proof.
  intros H I. destruct H as [|d H|d H]; [destruct I| |].
  - destruct I as [I|I]; [discriminate I|]. apply in_app_or in I as [I|[I|[]]]; [|discriminate I]. apply (H 10 I). cbn. tauto.
  - destruct I as [I|[I|I]]; [discriminate I|discriminate I|]. apply in_app_or in I as [I|[I|[I|[]]]]; [|discriminate I|discriminate I]. apply (H 10 I). cbn. tauto.
Qed.
Lemma link_end t d : link_tail d -> exists z y, 91 :: t ++ 93 :: d = z ++ [y] /\ (y = 93 \/ y = 41).
Proof.
  intros H. destruct H as [|d H|d H].
  - exists (91 :: t), 93. split; [reflexivity|left; reflexivity].
  - exists (91 :: t ++ 93 :: 40 :: d), 41. split; [cbn [app]; rewrite <- app_assoc; reflexivity|right; reflexivity].
  - exists (91 :: t ++ 93 :: 40 :: 60 :: d ++ [62]), 41. split; [cbn [app]; rewrite <- !app_assoc; cbn [app]; rewrite <- !app_assoc; reflexivity|right; reflexivity].
Qed.
Lemma markup_app a b : markup a -> markup b -> (ends [96] a = true -> starts [96] b = false) -> markup (a ++ b).
Proof.
  intros H Hb. assert (T : forall (x s : str), (ends [96] (x ++ s) = true -> starts [96] b = false) -> ends [96] s = true -> starts [96] b = false).
  { intros x s K E. apply K. destruct s as [|s0 s]; [discriminate E|]. rewrite ends_app by discriminate. exact E. }
  induction H as [|c s Nc H IH|c s Nc H IH|s H IH|s H IH|src inner s C H IH|t d s Ht IHt Nt Hd H IH]; intros E.
  - exact Hb.
  - cbn [app]. apply MChar; [exact Nc|]. apply IH. exact (T [c] s E).
  - cbn [app]. apply MEscaped; [exact Nc|]. apply IH. exact (T [92; c] s E).
  - rewrite <- app_assoc. apply MAmp, IH. exact (T (u "&amp;") s E).
  - rewrite <- app_assoc. apply MLt, IH. exact (T (u "&lt;") s E).
  - destruct (code_at _ _ _ C) as (x & -> & Hx & Ex & Sx & _ & K). rewrite <- app_assoc. assert (Hs : starts [96] (s ++ b) = false).
    { rewrite starts1_app. destruct s as [|s0 s]; [apply E; rewrite app_nil_r; exact Ex|]. destruct C as (n & content & _ & _ & _ & _ & C & _). exact C. }
    apply (MCode _ inner (s ++ b)); [exact (K _ Hs)|]. apply IH. exact (T x s E).
  - cbn [app]. rewrite <- app_assoc. cbn [app]. rewrite <- app_assoc. apply MLink; [exact Ht|exact Nt|exact Hd|]. apply IH. apply (T (91 :: t ++ 93 :: d) s). cbn [app]. rewrite <- app_assoc. exact E.
Qed.
Lemma markup_rcut src : markup src -> forall s c, src = s ++ [c] -> blank3 c = true -> markup s.
Proof.
  induction 1 as [|c0 s Nc H IH|c0 s Nc H IH|s H IH|s H IH|src inner s C H IH|t d s Ht IHt Nt Hd H IH]; intros w c E B.
  - destruct w; discriminate E.
  - destruct (app_last [c0] s w c E) as [[-> E1]|(r & -> & ->)]; [destruct w as [|w0 w]; [constructor|destruct w; discriminate E1]|]. cbn [app]. apply MChar; [exact Nc|]. exact (IH r c eq_refl B).
  - destruct (app_last [92; c0] s w c E) as [[-> E1]|(r & -> & ->)]; [|apply MEscaped; [exact Nc|exact (IH r c eq_refl B)]]. exfalso. change [92; c0] with ([92] ++ [c0]) in E1. apply app_inj_tail in E1 as [_ ->]. unfold blank3 in B. apply StrFacts.mem_In in B. cbn in B. repeat (destruct B as [<-|B]; [discriminate Nc|]). destruct B.
  - destruct (app_last (u "&amp;") s w c E) as [[-> E1]|(r & -> & ->)]; [|apply MAmp; exact (IH r c eq_refl B)]. exfalso. change (u "&amp;") with (u "&amp" ++ [59]) in E1. apply app_inj_tail in E1 as [_ <-]. discriminate B.
  - destruct (app_last (u "&lt;") s w c E) as [[-> E1]|(r & -> & ->)]; [|apply MLt; exact (IH r c eq_refl B)]. exfalso. change (u "&lt;") with (u "&lt" ++ [59]) in E1. apply app_inj_tail in E1 as [_ <-]. discriminate B.
  - destruct (code_at _ _ _ C) as (x & -> & Hx & Ex & _ & _ & K). destruct (app_last x s w c E) as [[-> E1]|(r & -> & ->)].
    + exfalso. rewrite E1, ends_one in Ex. apply N.eqb_eq in Ex. subst c. discriminate B.
    + apply (MCode _ inner r); [|exact (IH r c eq_refl B)]. apply K. destruct C as (n & content & _ & _ & _ & _ & C & _). rewrite starts1_app in C. destruct r; [reflexivity|exact C].
  - assert (E' : (91 :: t ++ 93 :: d) ++ s = w ++ [c]) by (cbn [app]; rewrite <- app_assoc; exact E). destruct (app_last _ s w c E') as [[-> E1]|(r & -> & ->)].
    + exfalso. destruct (link_end t d Hd) as (z & y & E2 & Hy). rewrite E2 in E1. apply app_inj_tail in E1 as [_ ->]. destruct Hy as [-> | ->]; discriminate B.
    + cbn [app]. rewrite <- app_assoc. apply MLink; [exact Ht|exact Nt|exact Hd|exact (IH r c eq_refl B)].
Qed.
Lemma markup_rstrip p : (forall c, p c = true -> blank3 c = true) -> forall s, markup s -> markup (rstrip_by p s).
Proof.
  intros Hp s H. destruct (rstrip_split p s) as (t & E & Ht). rewrite E in H. revert H. generalize (rstrip_by p s) as z. clear E. induction t as [|c t IH] using rev_ind; intros z H; [rewrite app_nil_r in H; exact H|].
  apply IH; [intros x I; apply Ht, in_or_app; left; exact I|]. rewrite app_assoc in H. apply (markup_rcut _ H _ c eq_refl). apply Hp, Ht. apply in_or_app. right. left. reflexivity.
Qed.
Lemma markup_lstrip p : (forall c, p c = true -> blank3 c = true) -> forall s, markup s -> markup (lstrip_by p s).
Proof.
  intros Hp. unfold lstrip_by. induction s as [|c s IH]; intros H; [exact H|]. cbn [drop_while]. destruct (p c) eqn:E; [|exact H]. apply IH. specialize (Hp c E). remember (c :: s) as src eqn:Es. destruct H as [|c0 s0 Nc H|c0 s0 Nc H|s0 H|s0 H|src inner s0 C H|t d s0 Ht Nt Hd H]; try discriminate Es.
  - injection Es as <- <-. exact H.
  - injection Es as <- _. discriminate Hp.
  - injection Es as <- _. discriminate Hp.
  - injection Es as <- _. discriminate Hp.
  - exfalso. subst src. destruct (code_at _ _ _ C) as (x & E1 & Hx & _ & Sx & _). destruct x as [|x0 x]; [congruence|]. injection E1 as <- _. rewrite starts1 in Sx. apply N.eqb_eq in Sx. subst c. discriminate Hp.
  - injection Es as <- _. discriminate Hp.
Qed.
Lemma blank3_sp c : sp_tab c = true -> blank3 c = true.
Proof. intros H. apply StrFacts.mem_In in H. apply StrFacts.mem_In. cbn in *. tauto. Qed.
Lemma markup_strip s : markup s -> markup (strip_by blank3 s).
Proof. intros H. apply markup_rstrip; [auto|]. apply markup_lstrip; auto. Qed.
Lemma markup_lf src : markup src -> forall a b, src = a ++ 10 :: b -> markup a /\ markup b.
Proof.
  induction 1 as [|c s Nc H IH|c s Nc H IH|s H IH|s H IH|src inner s C H IH|t d s Ht IHt Nt Hd H IH]; intros a b E.
  - destruct a; discriminate E.
  - destruct a as [|c' a]; [injection E as -> ->; split; [constructor|exact H]|]. injection E as <- E. destruct (IH a b E) as [K1 K2]. split; [apply MChar; assumption|exact K2].
  - destruct (app_cut [92; c] s a b 10 E) as (a' & -> & ->); [intros [I|[->|[]]]; [discriminate I|discriminate Nc]|]. destruct (IH a' b eq_refl) as [K1 K2]. split; [apply MEscaped; assumption|exact K2].
  - destruct (app_cut (u "&amp;") s a b 10 E) as (a' & -> & ->); [intros I; cbn in I; repeat (destruct I as [I|I]; [discriminate I|]); destruct I|]. destruct (IH a' b eq_refl) as [K1 K2]. split; [apply MAmp; assumption|exact K2].
  - destruct (app_cut (u "&lt;") s a b 10 E) as (a' & -> & ->); [intros I; cbn in I; repeat (destruct I as [I|I]; [discriminate I|]); destruct I|]. destruct (IH a' b eq_refl) as [K1 K2]. split; [apply MLt; assumption|exact K2].
  - destruct (code_at _ _ _ C) as (x & -> & Hx & Ex & _ & Nx & K). destruct (app_cut x s a b 10 E Nx) as (a' & -> & ->). destruct (IH a' b eq_refl) as [K1 K2]. split; [|exact K2]. apply (MCode _ inner a'); [|exact K1]. apply K. destruct C as (n & content & _ & _ & _ & _ & C & _). rewrite starts1_app in C. destruct a'; [reflexivity|exact C].
  - assert (E' : (91 :: t ++ 93 :: d) ++ s = a ++ 10 :: b) by (cbn [app]; rewrite <- app_assoc; exact E). destruct (app_cut _ s a b 10 E') as (a' & -> & ->).
    { intros [I|I]; [discriminate I|]. apply in_app_or in I as [I|[I|I]]; [exact (Nt I)|discriminate I|exact (tail_no_lf d Hd I)]. }
    destruct (IH a' b eq_refl) as [K1 K2]. split; [|exact K2]. cbn [app]. rewrite <- app_assoc. apply MLink; assumption.
Qed.
Lemma markup_lines s : markup s -> forall l, In l (split_char 10 s) -> markup l.
Proof.
  remember (List.length s) as n eqn:En. assert (Ln : (List.length s <= n)%nat) by lia. clear En. revert s Ln. induction n as [|n IH]; intros s Ln H l I.
  - destruct s; [|cbn in Ln; lia]. destruct I as [<-|[]]. constructor.
  - assert (G : forall a r, s = a ++ 10 :: r -> ~ In 10 a -> split_char 10 s = a :: split_char 10 r).
    { clear. intros a r -> Na. induction a as [|c a IHa]; cbn [app split_char]; [reflexivity|]. destruct (N.eqb_spec c 10) as [->|_]; [destruct Na; left; reflexivity|]. rewrite IHa; [reflexivity|]. intros J. apply Na. right. exact J. }
    destruct (in_dec N.eq_dec 10 s) as [J|J].
    + assert (Q : exists a r, s = a ++ 10 :: r /\ ~ In 10 a).
      { clear - J. induction s as [|c s IHs]; [destruct J|]. destruct (N.eq_dec c 10) as [->|Hc]; [exists [], s; split; [reflexivity|intros []]|]. destruct J as [J|J]; [congruence|]. destruct (IHs J) as (a & r & -> & Na). exists (c :: a), r. split; [reflexivity|]. intros [I|I]; [congruence|exact (Na I)]. }
      destruct Q as (a & r & E & Na). rewrite (G a r E Na) in I. subst s. destruct (markup_lf _ H a r eq_refl) as [K1 K2]. destruct I as [<-|I]; [exact K1|]. apply (IH r); [rewrite app_length in Ln; cbn in Ln; lia|exact K2|exact I].
    + assert (Q : split_char 10 s = [s]).
      { clear - J. induction s as [|c s IHs]; [reflexivity|]. cbn [split_char]. destruct (N.eqb_spec c 10) as [->|_]; [destruct J; left; reflexivity|]. rewrite IHs; [reflexivity|]. intros I. apply J. right. exact I. }
      rewrite Q in I. destruct I as [<-|[]]. exact H.
Qed.
Lemma displays_markup o t : displays o t -> markup o.
Proof. induction 1; [constructor|apply MChar|apply MEscaped|apply MAmp|apply MLt]; try assumption. intros I. apply H. cbn in *. tauto. Qed.
Lemma displays_start o t : displays o t -> starts [96] o = false.
Proof. intros H. rewrite starts1. destruct H as [|c s t Nc H| | |]; try reflexivity. destruct (N.eqb_spec 96 c) as [<-|]; [|reflexivity]. destruct Nc. cbn. tauto. Qed.
Lemma displays_no_lf o t : displays o t -> ~ In 10 o.
Proof.
  induction 1 as [|c s t Nc H IH|c s t Nc H IH|s t H IH|s t H IH]; intros I; [destruct I| | |apply in_app_or in I as [I|I]; [cbn in I; repeat (destruct I as [I|I]; [discriminate I|]); destruct I|exact (IH I)]|apply in_app_or in I as [I|I]; [cbn in I; repeat (destruct I as [I|I]; [discriminate I|]); destruct I|exact (IH I)]].
  - destruct I as [->|I]; [|exact (IH I)]. apply Nc. cbn. tauto.
  - destruct I as [I|[->|I]]; [discriminate I|discriminate Nc|exact (IH I)].
Qed.
Lemma plain_markup s : (forall c, In c s -> ~ In c structural) -> markup s.
Proof. induction s as [|c s IH]; intros H; [constructor|]. apply MChar; [apply H; left; reflexivity|]. apply IH. intros x I. apply H. right. exact I. Qed.

(* ---------- link destinations ---------- *)
Definition dest_char (c : N) : bool := negb (mem c (u " <>" ++ [9; 10; 13])).
Lemma hex_upper_ok n : dest_char (hex_upper n) = true.
Proof.
  unfold dest_char. assert (K : hex_upper n <> 32 /\ hex_upper n <> 60 /\ hex_upper n <> 62 /\ hex_upper n <> 9 /\ hex_upper n <> 10 /\ hex_upper n <> 13) by (unfold hex_upper; destruct (n <? 10) eqn:E; lia).
  destruct (mem _ _) eqn:M; [|reflexivity]. apply StrFacts.mem_In in M. exfalso. revert M K. generalize (hex_upper n) as k. intros k M K. cbn in M. intuition congruence.
Qed.
Lemma md_safe_ok b : md_safe b = true -> dest_char b = true.
Proof.
  intros H. unfold dest_char. destruct (mem b (u " <>" ++ [9; 10; 13])) eqn:M; [|reflexivity]. apply StrFacts.mem_In in M. cbn in M. repeat (destruct M as [<-|M]; [vm_compute in H; discriminate H|]). destruct M.
Qed.
Lemma quoted_ok q c : In c (flat_map md_quote_byte q) -> dest_char c = true.
Proof.
  intros I. apply in_flat_map in I as (b & Ib & Ic). unfold md_quote_byte in Ic. destruct (md_safe b) eqn:M.
  - destruct Ic as [<-|[]]. apply md_safe_ok, M.
  - destruct Ic as [<-|[<-|[<-|[]]]]; [reflexivity| |]; apply hex_upper_ok.
Qed.
Lemma dest_char_spec c : dest_char c = true -> ~ In c (u " <>" ++ [9; 10; 13]).
Proof. intros H I. apply StrFacts.mem_In in I. unfold dest_char in H. rewrite I in H. discriminate H. Qed.
Lemma destination_tail url d : link_destination url = Some d -> link_tail (40 :: d ++ [41]).
Proof.
  unfold link_destination. intros H. cbv zeta in H. destruct (strip url) as [|c0 s0] eqn:Es; [injection H as <-; apply (LT_bare []); intros c []|]. set (s := c0 :: s0) in *. destruct (existsb _ _) eqn:X.
  - destruct (utf8_encode s) as [q|]; [|discriminate H]. cbn [option_map] in H. assert (d = 60 :: flat_map md_quote_byte q ++ [62]) as -> by (injection H as <-; reflexivity).
    cbn [app]. rewrite <- app_assoc. apply LT_angle. intros c I. apply dest_char_spec, (quoted_ok q), I.
  - assert (d = s) as -> by congruence. apply LT_bare. intros c I J. assert (K : existsb (fun ch => mem ch s) (u " " ++ [9; 10; 13] ++ u "()<>") = true); [|rewrite K in X; discriminate X]. apply existsb_exists. exists c. split; [cbn in J |- *; tauto|apply StrFacts.mem_In, I].
Qed.
