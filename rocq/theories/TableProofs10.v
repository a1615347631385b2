(* C67: end tags: foreign content; the standard *)
From Coq Require Import List Arith Bool String Lia.
From Verif Require Import Str StrFacts.
From Verif Require Import AaaModel GuardModel CloseModel CloseSpec CloseProofs1 CloseProofs2 CloseProofs3 CloseProofs4 CloseProofs5 CloseProofs6 CloseProofs7 TableModel TableSpec TableProofs1 TableProofs2 TableProofs3 TableProofs4 TableProofs5 TableProofs6 TableProofs7 TableProofs8 TableProofs9.
Import ListNotations.
Open Scope string_scope. Open Scope list_scope. Open Scope nat_scope.

Lemma hit_ten : forall n e, one_of ten n = true -> known e -> named n e = hit n e.
Proof.
  intros n e N K. unfold hit. destruct (html e) eqn:H; [reflexivity|]. destruct K as [K|K]; [congruence|]. unfold named. destruct (str_eqb (lower (en e)) n) eqn:L.
  - apply str_eqb_eq in L. rewrite (content_lower e n K H N L). apply str_eqb_refl.
  - destruct (str_eqb (en e) n) eqn:X; [|reflexivity]. apply str_eqb_eq in X. rewrite X, (proj2 (ten_svg n N)), str_eqb_refl in L. discriminate.
Qed.
Lemma stays_ten : forall n e t, Forall known (e :: t) -> bottom (e :: t) -> html e = false -> one_of ten n = true ->
  match foreign_loop n (e :: t) with
  | Popped m => stays n (e :: t) = Stay m
  | Html_rules => stays n (e :: t) = Leave \/ (reaches point html (e :: t) = true /\ reaches (element n) html (e :: t) = true)
  end.
Proof.
  intros name e t K B F N. destruct (run_parts _ B) as [r [h [w [E [R H]]]]].
  unfold stays. rewrite F. assert (in_strs name (map u ["br"; "p"]) = false) as -> by (refine (in_apart _ _ N _ _); concrete). cbv zeta. rewrite (proj1 (ten_svg name N)), str_eqb_refl, Nat.max_0_r.
  assert (last_pos (named name) (e :: t) = last_pos (hit name) (e :: t)) as -> by (apply last_pos_ext; eapply Forall_impl; [|exact K]; intros x Kx; exact (hit_ten name x N Kx)).
  rewrite E in *.
  assert (last_pos html (r ++ h :: w) = S (List.length w)) as HI by (rewrite last_pos_skip by exact R; cbn [last_pos]; rewrite H; reflexivity).
  rewrite HI. destruct (foreign_loop_run name r h w R H) as [[r1 [x [r2 [-> [A [X ->]]]]]]|[A ->]].
  - assert (last_pos (hit name) ((r1 ++ x :: r2) ++ h :: w) = S (List.length r2 + S (List.length w))) as TG.
    { rewrite <- app_assoc. rewrite last_pos_skip by exact A. cbn [app last_pos]. rewrite X. cbn [List.length]. rewrite app_length. cbn [List.length]. reflexivity. }
    rewrite TG. replace (S (List.length r2 + S (List.length w)) =? 0) with false by reflexivity. replace (S (List.length r2 + S (List.length w)) <? S (List.length w)) with false by (symmetry; apply Nat.ltb_ge; lia). cbn [orb].
    replace (List.length ((r1 ++ x :: r2) ++ h :: w) - S (List.length r2 + S (List.length w))) with (List.length r1) by (rewrite !app_length; cbn [List.length]; lia).
    rewrite <- app_assoc. rewrite skipn_app, skipn_all, Nat.sub_diag. cbn [app skipn]. apply Forall_app in R. destruct R as [_ R]. inversion R; subst. match goal with J : html x = false |- _ => rewrite J end. reflexivity.
  - rewrite (last_pos_skip _ _ _ A). cbn [last_pos]. destruct (hit name h) eqn:Q.
    + cbn [List.length]. replace (S (List.length w) =? 0) with false by reflexivity. rewrite Nat.ltb_irrefl. cbn [orb].
      replace (List.length (r ++ h :: w) - S (List.length w)) with (List.length r) by (rewrite app_length; cbn [List.length]; lia).
      rewrite skipn_app, skipn_all, Nat.sub_diag. cbn [app skipn]. rewrite H. cbn [andb].
      destruct (S (List.length w) <? last_pos foreign_boundary (r ++ h :: w)) eqn:LT; [|left; reflexivity]. right. split.
      * destruct (existsb point r) eqn:P.
        -- clear - P R. induction R as [|x r Hx R IH]; [discriminate|]. cbn [existsb] in P. cbn [app reaches]. destruct (point x); [reflexivity|]. rewrite Hx. exact (IH P).
        -- exfalso. apply Nat.ltb_lt in LT. rewrite last_pos_skip in LT.
           ++ pose proof (last_pos_le foreign_boundary (h :: w)). cbn [List.length] in *. lia.
           ++ apply Forall_forall. intros x Ix. rewrite boundary_point. destruct (point x) eqn:Px; [|reflexivity]. assert (existsb point r = true) by (apply existsb_exists; exists x; auto). congruence.
      * clear - R H Q. induction R as [|x r Hx R IH]; cbn [app reaches].
        -- unfold hit in Q. rewrite H in Q. rewrite (element_named _ _ H), Q. reflexivity.
        -- rewrite Hx. rewrite IH. apply orb_true_r.
    + left. pose proof (last_pos_le (hit name) w). replace (last_pos (hit name) w <? S (List.length w)) with true by (symmetry; apply Nat.ltb_lt; lia). rewrite orb_true_r. reflexivity.
Qed.
Lemma loop_content : forall n c b m, match b with e :: _ => html e = true | [] => True end -> foreign_loop n (c ++ b) = Popped m -> exists x c', c = x ++ c' /\ x <> [] /\ m = c' ++ b.
Proof.
  intros n c b m Hb. induction c as [|e c IH]; intros L.
  - cbn [app] in L. destruct b as [|e b]; [discriminate L|]. cbn [foreign_loop] in L. rewrite Hb in L. discriminate.
  - cbn [app foreign_loop] in L. destruct (html e); [discriminate|]. destruct (str_eqb (lower (en e)) n).
    + injection L as <-. exists [e], c. split; [reflexivity|]. split; [discriminate|reflexivity].
    + destruct (IH L) as (x & c' & -> & _ & ->). exists (e :: x), c'. split; [reflexivity|]. split; [discriminate|reflexivity].
Qed.
Lemma base_head : forall q b, base q b -> match b with e :: _ => html e = true | [] => True end.
Proof. intros q b B. destruct B as [|s c b I C B H P W]; [reflexivity|]. segs I; reflexivity. Qed.
Lemma follows_popped : forall q o n s p m, tinv q s p -> one_of ten n = true -> foreign_loop n (sst s) = Popped m -> follows q o (Tag (EndTag n)) s p.
Proof.
  intros q o n s p m I N L. destruct (shaped_known q _ (t_shape _ _ _ I)) as [Kn Bt]. destruct (shaped_base q _ (t_shape _ _ _ I)) as (c & b & E & C & B & G).
  destruct p as [pk g pf]. pose proof (t_same _ _ _ I) as Sm. cbn [sk] in Sm. subst pk. destruct (sst s) as [|e t] eqn:Es; [discriminate L|]. assert (html e = false) as He by (cbn [foreign_loop] in L; destruct (html e); [discriminate|reflexivity]).
  pose proof (stays_ten n e t Kn Bt He N) as St'. rewrite L in St'.
  rewrite E in L. destruct (loop_content n c b m (base_head q b B) L) as (x & c' & Ec & Nx & ->).
  assert (grouped b = false) as Gb by (destruct (grouped b); [rewrite (G eq_refl) in Ec; symmetry in Ec; apply app_eq_nil in Ec as [Ec _]; congruence|reflexivity]).
  pose proof (t_placed _ _ _ I) as W. pose proof (t_single _ _ _ I) as Sg. rewrite Es, E, Ec in W, Sg. rewrite <- app_assoc in W, Sg.
  assert (all_content c') as C' by (rewrite Ec in C; exact (suffix_content _ _ C)).
  exists (with_sst (c' ++ b) s), (St (c' ++ b) g pf), []. split; [|split; [|split]].
  - unfold std_event, std_tag. rewrite Es, He. rewrite E, L. reflexivity.
  - unfold code_event, table_end. cbn [sk]. rewrite St'. reflexivity.
  - unfold with_sst. rewrite (t_mode _ _ _ I), Es, E, skip_reset by exact C. rewrite <- (skip_reset c' C' b). apply tinv_content; try assumption.
    + rewrite Gb. discriminate.
    + exact (well_placed_suffix _ _ W).
    + exact (single_suffix _ _ Sg).
    + rewrite Gb. discriminate.
  - cbn [sfm fm with_sst]. auto.
Qed.
(* the standard *)
Fixpoint below (n : str) (s : stack) : option stack := match s with [] => None | e :: t => if str_eqb (en e) n then Some t else below n t end.
Definition remains (n : str) (s : stack) : option stack := if grouped s && negb (one_of ["table"] n) then Some [nd "table"] else below n s.
Ltac tests := repeat match goal with |- context [one_of ?a (u ?b)] => let v := eval vm_compute in (one_of a (u b)) in change (one_of a (u b)) with v end; cbv iota.
Lemma std_end_seg : forall q n c s k f, all_content c -> In s segments -> one_of ten n = true -> (grouped s = true -> c = []) -> (grouped s = true -> one_of ["col"] n = false) ->
  html_rules q (EndTag n) (State (reset (s ++ k)) (c ++ s ++ k) f) =
  match remains n s with
  | Some x => Some (State (reset (x ++ k)) (x ++ k) (if cellish s || captioned s then clear_formatting f else f), [])
  | None => Some (State (reset (s ++ k)) (c ++ s ++ k) f, [])
  end.
Proof.
  intros q n c s k f C I N G Gc. unfold html_rules. cbn [process].
  segs I; match goal with |- context [by_mode q ?t (State (reset ?b) ?l f)] => let r := eval vm_compute in (reset b) in change (reset b) with r end; names N;
  first [ specialize (Gc eq_refl); vm_compute in Gc; discriminate Gc
        | specialize (G eq_refl); subst c; reflexivity
        | unfold by_mode at 1; cbn [md]; unfold in_cell, in_row, in_table_body, in_caption, in_table; cbn [sst sfm]; cbv zeta; tests;
          rewrite ?caption_until, ?caption_is_until, ?cell_element_until by concrete; skips; reflexivity ].
Qed.
