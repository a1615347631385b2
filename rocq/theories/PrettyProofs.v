(* PROOFS: the pretty printer, part 1: pieces of html *)
From Coq Require Import Lia ZifyBool ZifyN ZifyNat ZArith.
From Verif Require Import ListFacts Str StrFacts HtmlCharRefSpec HtmlTokSpec TokFacts RawTextSpec SerializerModel SerTreeSpec
  SerEscapeProofs SerCommentProofs SerRawProofs SerTreeProofs MiscModel PrettyModel PrettySpec.
From Verif Require MiscSpaceProofs.
Open Scope list_scope. Open Scope N_scope.

(* settled and markup in one *)
Section View.
Variable strict : bool.
Fixpoint view (depth : nat) (ts : list token) : list token :=
  match ts with
  | [] => []
  | t :: ts =>
    match t with
    | TStart name _ _ => t :: view (if keeps_spaceb name then S depth else depth) ts
    | TEnd name => t :: view (if keeps_spaceb name then pred depth else depth) ts
    | TChar c => if negb strict || (Nat.eqb depth 0 && is_space c) then view depth ts else t :: view depth ts
    | _ => t :: view depth ts
    end
  end.
Definition keepc (c : N) : bool := strict && negb (is_space c).
Lemma view_chars d : view 0 (chars d) = chars (filter keepc d).
Proof.
  induction d as [|c d IH]; [reflexivity|]. change (chars (c :: d)) with (TChar c :: chars d). cbn [view filter]. rewrite IH. unfold keepc.
  destruct strict; cbn [negb orb andb]; [|reflexivity]. destruct (is_space c); reflexivity.
Qed.
Lemma view_space d : (forall c, In c d -> is_space c = true) -> view 0 (chars d) = [].
Proof.
  intros H. rewrite view_chars. replace (filter keepc d) with (@nil N); [reflexivity|]. symmetry. induction d as [|c d IH]; [reflexivity|]. cbn [filter]. unfold keepc at 1. rewrite (H c (or_introl eq_refl)), andb_false_r. apply IH. intros x I. apply H. right. exact I.
Qed.
Definition sol (c : N) : bool := negb (is_space c).
Lemma view_same a b : filter sol a = filter sol b -> view 0 (chars a) = view 0 (chars b).
Proof.
  intros H. rewrite !view_chars. f_equal. unfold keepc. destruct strict; [exact H|]. clear. induction a as [|c a IH]; cbn [filter andb]; [|exact IH]. induction b as [|c b IH]; [reflexivity|exact IH].
Qed.
Definition balanced (ts : list token) : Prop := forall k r, view k (ts ++ r) = view k ts ++ view k r.
Lemma bal_nil : balanced []. Proof. intros k r. reflexivity. Qed.
Lemma bal_app a b : balanced a -> balanced b -> balanced (a ++ b).
Proof. intros A B k r. rewrite <- app_assoc, A, B, (A k b), app_assoc. reflexivity. Qed.
Lemma bal_chars d : balanced (chars d).
Proof.
  intros k r. induction d as [|c d IH]; [reflexivity|]. change (chars (c :: d)) with (TChar c :: chars d). cbn [app view]. rewrite IH. destruct (_ || _); reflexivity.
Qed.
Lemma bal_one t : (match t with TComment _ | TDoctype _ _ _ _ => True | _ => False end) -> balanced [t].
Proof. intros H k r. destruct t; try destruct H; reflexivity. Qed.
Lemma elem_view name a f ts k r : balanced ts ->
  view k (TStart name a f :: ts ++ TEnd name :: r) = TStart name a f :: view (if keeps_spaceb name then S k else k) ts ++ TEnd name :: view k r.
Proof. intros B. cbn [view]. rewrite B. cbn [view]. destruct (keeps_spaceb name); reflexivity. Qed.
Lemma bal_elem name a f ts : balanced ts -> balanced (TStart name a f :: ts ++ [TEnd name]).
Proof.
  intros B k r. change ((TStart name a f :: ts ++ [TEnd name]) ++ r) with (TStart name a f :: (ts ++ [TEnd name]) ++ r). rewrite <- app_assoc. cbn [app]. rewrite !elem_view by exact B. cbn [view]. cbn [app]. rewrite <- app_assoc. reflexivity.
Qed.
Lemma bal_void name a f : keeps_spaceb name = false -> balanced [TStart name a f].
Proof. intros H k r. cbn [app view]. rewrite H. reflexivity. Qed.

Variable sc : bool.
Inductive piece := PT (d : str) | PM (s : str) (t : list token).
Definition pstr (p : piece) : str := match p with PT d => flat_map esc1 d | PM s _ => s end.
Definition ptok (p : piece) : list token := match p with PT d => chars d | PM _ t => t end.
Definition okp (p : piece) : Prop := match p with PT _ => True | PM s t => reads sc s t /\ balanced t /\ exists m, s = 60 :: m ++ [62] end.
Definition pstrs (ps : list piece) : str := List.concat (map pstr ps).
Definition ptoks (ps : list piece) : list token := List.concat (map ptok ps).
Definition good (s : str) (ts : list token) : Prop := exists ps, Forall okp ps /\ s = pstrs ps /\ ts = ptoks ps.

Lemma okp_reads p : okp p -> reads sc (pstr p) (ptok p).
Proof.
  destruct p as [d|s t]; [|intros H; apply H]. intros _ last rest. cbn [pstr ptok]. rewrite run_data_esc, data_last. reflexivity.
Qed.
Lemma okp_bal p : okp p -> balanced (ptok p).
Proof. destruct p as [d|s t]; [intros _; apply bal_chars|intros H; apply H]. Qed.
Lemma good_reads s ts : good s ts -> reads sc s ts.
Proof.
  intros (ps & H & -> & ->). induction H as [|p ps Hp H IH]; [intros last rest; apply data_last|]. unfold pstrs, ptoks. cbn [map List.concat]. apply reads_app; [apply okp_reads, Hp|exact IH].
Qed.
Lemma good_bal s ts : good s ts -> balanced ts.
Proof.
  intros (ps & H & _ & ->). induction H as [|p ps Hp H IH]; [apply bal_nil|]. unfold ptoks. cbn [map List.concat]. apply bal_app; [apply okp_bal, Hp|exact IH].
Qed.
Lemma good_nil : good [] []. Proof. exists []. repeat split. constructor. Qed.
Lemma good_app a b ta tb : good a ta -> good b tb -> good (a ++ b) (ta ++ tb).
Proof.
  intros (p & A & -> & ->) (q & B & -> & ->). exists (p ++ q). split; [apply Forall_app; split; assumption|]. unfold pstrs, ptoks. rewrite !map_app, !concat_app. split; reflexivity.
Qed.
Lemma good_text d : good (flat_map esc1 d) (chars d).
Proof. exists [PT d]. split; [constructor; [exact Logic.I|constructor]|]. unfold pstrs, ptoks. cbn [map List.concat pstr ptok]. rewrite !app_nil_r. split; reflexivity. Qed.
Lemma good_piece s t : reads sc s t -> balanced t -> (exists m, s = 60 :: m ++ [62]) -> good s t.
Proof. intros A B C. exists [PM s t]. split; [constructor; [split; [exact A|split; [exact B|exact C]]|constructor]|]. unfold pstrs, ptoks. cbn [map List.concat pstr ptok]. rewrite !app_nil_r. split; reflexivity. Qed.
Lemma good_empty ts : good [] ts -> ts = [].
Proof.
  intros (ps & H & E & ->). induction H as [|p ps Hp H IH]; [reflexivity|]. unfold pstrs in E. cbn [map List.concat] in E. symmetry in E. apply app_eq_nil in E as [E1 E2]. unfold ptoks. cbn [map List.concat]. fold (ptoks ps). rewrite (IH (eq_sym E2)).
  destruct p as [d|s t]; cbn [pstr ptok] in *; [destruct d as [|c d]; [reflexivity|]|destruct Hp as (_ & _ & m & ->); discriminate E1].
  exfalso. cbn [flat_map] in E1. apply app_eq_nil in E1 as [E1 _]. unfold esc1 in E1. repeat (match type of E1 with context [if ?b then _ else _] => destruct b end; try discriminate E1).
Qed.
Definition bl (b : str) : Prop := forall c, In c b -> c = 32 \/ c = 10.
Lemma bl_text b : bl b -> flat_map esc1 b = b.
Proof. induction b as [|c b IH]; intros H; [reflexivity|]. cbn [flat_map]. rewrite IH by (intros x I; apply H; right; exact I). destruct (H c (or_introl eq_refl)) as [-> | ->]; reflexivity. Qed.
Lemma bl_view b : bl b -> view 0 (chars b) = [].
Proof. intros H. apply view_space. intros c I. destruct (H c I) as [-> | ->]; reflexivity. Qed.
Lemma good_bl b : bl b -> good b (chars b).
Proof. intros H. rewrite <- (bl_text b H) at 1. apply good_text. Qed.
Lemma bl_indent d s : bl (pretty_indent d s).
Proof. intros c I. apply repeat_spec in I. left. exact I. Qed.

(* strip(" ") of pieces *)
Definition p32 (c : N) : bool := mem c (u " ").
Lemma p32_spec c : p32 c = true <-> c = 32.
Proof. unfold p32. rewrite mem_In. cbn. split; [intros [E|[]]; congruence|intros ->; left; reflexivity]. Qed.
Lemma esc1_head c : c <> 32 -> exists h t, esc1 c = h :: t /\ h <> 32.
Proof. intros H. unfold esc1. repeat (match goal with |- context [if ?b then _ else _] => destruct b end); try (eexists; eexists; split; [reflexivity|discriminate]). exists c, []. split; [reflexivity|exact H]. Qed.
Lemma esc1_last c : c <> 32 -> exists h t, esc1 c = h ++ [t] /\ t <> 32.
Proof.
  intros H. unfold esc1. repeat (match goal with |- context [if ?b then _ else _] => destruct b end).
  - exists (u "&amp"), 59. split; [reflexivity|discriminate].
  - exists (u "&lt"), 59. split; [reflexivity|discriminate].
  - exists (u "&gt"), 59. split; [reflexivity|discriminate].
  - exists [], c. split; [reflexivity|exact H].
Qed.
Lemma lstrip_good s ts : good s ts -> exists ts', good (lstrip_by p32 s) ts' /\ view 0 ts' = view 0 ts.
Proof.
  intros (ps & H & -> & ->). unfold lstrip_by. induction H as [|p ps Hp H IH].
  { exists []. split; [exact good_nil|reflexivity]. }
  unfold pstrs, ptoks. cbn [map List.concat]. fold (pstrs ps) (ptoks ps). destruct p as [d|s t].
  - cbn [pstr ptok]. clear Hp. induction d as [|c d IHd]; [exact IH|]. change (chars (c :: d)) with (TChar c :: chars d). cbn [flat_map]. destruct (N.eq_dec c 32) as [->|Hc].
    + change (esc1 32) with [32]. cbn [app drop_while]. change (drop_while p32 (32 :: flat_map esc1 d ++ pstrs ps)) with (drop_while p32 (flat_map esc1 d ++ pstrs ps)). destruct IHd as (ts' & A & B). exists ts'. split; [exact A|]. rewrite B. cbn [view]. change (is_space 32) with true. cbn [Nat.eqb andb]. rewrite orb_true_r. reflexivity.
    + destruct (esc1_head c Hc) as (h & t & E & Hh). rewrite <- app_assoc, E. cbn [app]. assert (Ed : drop_while p32 (h :: t ++ flat_map esc1 d ++ pstrs ps) = esc1 c ++ flat_map esc1 d ++ pstrs ps).
      { rewrite E. set (X := t ++ flat_map esc1 d ++ pstrs ps). change (drop_while p32 (h :: X)) with (if p32 h then drop_while p32 X else h :: X). destruct (p32 h) eqn:K; [apply p32_spec in K; congruence|]. reflexivity. }
      rewrite Ed. exists (chars (c :: d) ++ ptoks ps). split; [|reflexivity]. rewrite app_assoc. change (esc1 c ++ flat_map esc1 d) with (flat_map esc1 (c :: d)). apply good_app; [apply good_text|]. exists ps. split; [exact H|split; reflexivity].
  - cbn [pstr ptok]. pose proof Hp as (R & B & m & E). exists (t ++ ptoks ps). split; [|reflexivity]. assert (Ed : drop_while p32 (s ++ pstrs ps) = s ++ pstrs ps) by (rewrite E; reflexivity). rewrite Ed. apply good_app; [apply good_piece; [exact R|exact B|exists m; exact E]|exists ps; split; [exact H|split; reflexivity]].
Qed.
Lemma rstrip_snoc s c : rstrip_by p32 (s ++ [c]) = if c =? 32 then rstrip_by p32 s else s ++ [c].
Proof.
  unfold rstrip_by. rewrite rev_app_distr. cbn [rev app]. change (drop_while p32 (c :: rev s)) with (if p32 c then drop_while p32 (rev s) else c :: rev s). destruct (N.eqb_spec c 32) as [->|H]; [reflexivity|]. destruct (p32 c) eqn:K; [apply p32_spec in K; congruence|]. cbn [rev]. rewrite rev_involutive. reflexivity.
Qed.
Lemma rstrip_good s ts : good s ts -> exists ts', good (rstrip_by p32 s) ts' /\ view 0 ts' = view 0 ts.
Proof.
  intros (ps & H & -> & ->). induction ps as [|p ps IH] using rev_ind.
  { exists []. split; [exact good_nil|reflexivity]. }
  apply Forall_app in H as [H Hp]. inversion Hp as [|? ? Hp' _]; subst. specialize (IH H). clear Hp. unfold pstrs, ptoks. rewrite !map_app, !concat_app. cbn [map List.concat]. rewrite !app_nil_r. fold (pstrs ps) (ptoks ps).
  assert (G : good (pstrs ps) (ptoks ps)) by (exists ps; split; [exact H|split; reflexivity]).
  destruct p as [d|s t].
  - cbn [pstr ptok]. clear Hp'. induction d as [|c d IHd] using rev_ind; [cbn; rewrite !app_nil_r; exact IH|].
    rewrite flat_map_app. cbn [flat_map]. rewrite app_nil_r. destruct (N.eq_dec c 32) as [->|Hc].
    + change (esc1 32) with [32]. rewrite app_assoc, rstrip_snoc. cbn [N.eqb Pos.eqb]. destruct IHd as (ts' & A & B). exists ts'. split; [exact A|]. rewrite B. unfold chars. rewrite map_app. fold (chars d). rewrite (app_assoc (ptoks ps)).
      rewrite (bal_app _ _ (good_bal _ _ G) (bal_chars d) O (map TChar [32])). cbn [map view]. change (is_space 32) with true. cbn [Nat.eqb andb]. rewrite orb_true_r, app_nil_r. reflexivity.
    + destruct (esc1_last c Hc) as (h & t & E & Ht). exists (ptoks ps ++ chars (d ++ [c])). split; [|reflexivity].
      assert (Ed : rstrip_by p32 (pstrs ps ++ flat_map esc1 d ++ esc1 c) = pstrs ps ++ flat_map esc1 (d ++ [c])).
      { rewrite flat_map_app. cbn [flat_map]. rewrite app_nil_r, E, !app_assoc, rstrip_snoc. destruct (N.eqb_spec t 32); [congruence|reflexivity]. }
      rewrite Ed. apply good_app; [exact G|apply good_text].
  - cbn [pstr ptok]. pose proof Hp' as (R & B & m & E). exists (ptoks ps ++ t). split; [|reflexivity].
    assert (Ed : rstrip_by p32 (pstrs ps ++ s) = pstrs ps ++ s) by (rewrite E, app_comm_cons, app_assoc, rstrip_snoc; reflexivity).
    rewrite Ed. apply good_app; [exact G|apply good_piece; [exact R|exact B|exists m; exact E]].
Qed.
Lemma strip_good s ts : good s ts -> exists ts', good (strip_chars (u " ") s) ts' /\ view 0 ts' = view 0 ts.
Proof.
  intros G. destruct (lstrip_good s ts G) as (t1 & G1 & V1). destruct (rstrip_good _ _ G1) as (t2 & G2 & V2). exists t2. split; [exact G2|congruence].
Qed.

(* an element whose content is ordinary markup *)
Lemma open_shape ns name attrs s : serialize_start_tag default_opts ns name attrs = Some s -> exists m, s = 60 :: m ++ [62].
Proof.
  unfold serialize_start_tag. destruct (validate_tag_name name) as [nm|]; [|discriminate]. destruct (serialize_attrs default_opts ns nm attrs) as [a|]; [|discriminate]. intros H. injection H as <-. cbn. exists (nm ++ a). rewrite <- app_assoc. reflexivity.
Qed.
Lemma elem_shape op x name : (exists m, op = 60 :: m ++ [62]) -> exists m, op ++ x ++ u "</" ++ name ++ u ">" = 60 :: m ++ [62].
Proof. intros (m & ->). exists (m ++ [62] ++ x ++ u "</" ++ name). change (u ">") with [62]. change ((60 :: m ++ [62]) ++ x ++ u "</" ++ name ++ [62]) with (60 :: ((m ++ [62]) ++ x ++ u "</" ++ name ++ [62])). f_equal. rewrite <- !app_assoc. reflexivity. Qed.
End View.

Lemma view_settled k ts : view true k ts = settled k ts.
Proof. revert k. induction ts as [|t ts IH]; intros k; [reflexivity|]. destruct t; cbn [view settled]; rewrite ?IH; reflexivity. Qed.
Lemma view_markup k ts : view false k ts = markup ts.
Proof. revert k. induction ts as [|t ts IH]; intros k; [reflexivity|]. unfold markup. destruct t; cbn [view filter]; fold (markup ts); rewrite ?IH; reflexivity. Qed.
