(* PROOFS: text extraction *)
From Coq Require Import Lia.
From Verif Require Import ListFacts Str StrFacts HtmlTokSpec RawTextSpec SerializerModel SerTreeSpec SerTreeProofs TextModel TextSpec.
Open Scope list_scope. Open Scope N_scope.

Fixpoint texts_f (n : node) : list str :=
  match n with
  | NText d => [d]
  | NDocument cs => flat_map texts_f cs
  | NElem _ _ _ cs tc => flat_map texts_f cs ++ match tc with Some l => flat_map texts_f l | None => [] end
  | _ => []
  end.
Lemma texts_all_of l : Forall (fun n => texts n (texts_f n)) l -> texts_all l (flat_map texts_f l).
Proof. induction 1; [constructor|]. cbn [flat_map]. constructor; assumption. Qed.
Lemma texts_exist n : texts n (texts_f n).
Proof.
  induction n as [d|d|d|d|cs IH|name ns attrs cs tc IH IHt] using node_ind'; try constructor.
  - apply texts_all_of, IH.
  - cbn [texts_f]. destruct tc as [l|]; [constructor; apply texts_all_of; [exact IH|apply IHt; reflexivity]|]. rewrite app_nil_r. constructor. apply texts_all_of, IH.
Qed.
Scheme texts_mut := Minimality for texts Sort Prop with texts_all_mut := Minimality for texts_all Sort Prop.
Lemma texts_unique n l : texts n l -> l = texts_f n.
Proof.
  intros H. apply (texts_mut (fun n l => l = texts_f n) (fun ns l => l = flat_map texts_f ns)) with (n := n) (l := l); try reflexivity; try exact H.
  - intros cs l0 _ E. exact E.
  - intros name ns attrs cs l0 _ E. cbn [texts_f]. rewrite app_nil_r. exact E.
  - intros name ns attrs cs ct l0 l1 _ E _ E'. cbn [texts_f]. congruence.
  - intros m ns l0 l1 _ E _ E'. cbn [flat_map]. congruence.
Qed.

Definition sizes (l : list node) : nat := fold_right (fun c a => text_size c + a)%nat O l.
Lemma sizes_app a b : sizes (a ++ b) = (sizes a + sizes b)%nat.
Proof. induction a as [|n a IH]; [reflexivity|]. cbn [app sizes fold_right]. fold (sizes (a ++ b)) (sizes a). lia. Qed.
Lemma text_size_doc cs : text_size (NDocument cs) = S (sizes cs). Proof. reflexivity. Qed.
Lemma text_size_elem name ns attrs cs tc : text_size (NElem name ns attrs cs tc) = S (S (sizes cs + sizes (template_of (NElem name ns attrs cs tc)))).
Proof.
  destruct tc as [l|]; cbn [template_of text_size]; fold (sizes cs).
  - change (sizes [NDocument l]) with (text_size (NDocument l) + 0)%nat. rewrite text_size_doc. fold (sizes l). lia.
  - reflexivity.
Qed.
Lemma texts_kids name ns attrs cs tc : texts_f (NElem name ns attrs cs tc) = flat_map texts_f cs ++ flat_map texts_f (template_of (NElem name ns attrs cs tc)).
Proof. destruct tc as [l|]; cbn [template_of flat_map texts_f]; rewrite ?app_nil_r; reflexivity. Qed.

Lemma piece_pieces b d : text_piece b d = pieces b [d].
Proof. unfold text_piece, pieces, nonempty. destruct b; cbn [map filter]; [destruct (strip d)|destruct d]; reflexivity. Qed.
Lemma pieces_app b l l' : pieces b (l ++ l') = pieces b l ++ pieces b l'.
Proof. unfold pieces, nonempty. destruct b; rewrite ?map_app, filter_app; reflexivity. Qed.

Lemma collect_spec b fuel : forall st parts, (sizes st <= fuel)%nat -> collect fuel b st parts = Some (parts ++ pieces b (flat_map texts_f st)).
Proof.
  induction fuel as [|fuel IH]; intros st parts H.
  - destruct st as [|n st]; [cbn; unfold pieces, nonempty; destruct b; rewrite app_nil_r; reflexivity|]. cbn [sizes fold_right] in H. destruct n; cbn [text_size] in H; lia.
  - destruct st as [|n st]; [cbn; unfold pieces, nonempty; destruct b; rewrite app_nil_r; reflexivity|]. cbn [collect flat_map]. cbn [sizes fold_right] in H. fold (sizes st) in H.
    destruct n as [d|d|d|d|cs|name ns attrs cs tc].
    + rewrite IH by (cbn [text_size] in H; lia). rewrite piece_pieces, <- app_assoc, <- pieces_app. reflexivity.
    + cbn [children_of template_of app]. rewrite IH by (cbn [text_size] in H; lia). reflexivity.
    + cbn [children_of template_of app]. rewrite IH by (cbn [text_size] in H; lia). reflexivity.
    + cbn [children_of template_of app]. rewrite IH by (cbn [text_size] in H; lia). reflexivity.
    + cbn [children_of template_of app]. rewrite IH by (rewrite text_size_doc in H; rewrite sizes_app; lia). rewrite flat_map_app. reflexivity.
    + cbn [children_of]. rewrite IH by (rewrite text_size_elem in H; rewrite !sizes_app; lia). rewrite !flat_map_app, texts_kids, <- app_assoc. reflexivity.
Qed.

(* ---------- blocks ---------- *)
Fixpoint items_f (n : node) : list item :=
  match n with
  | NText d => [Words d]
  | NDocument cs => flat_map items_f cs
  | NElem name _ _ cs tc =>
    let l := flat_map items_f cs ++ match tc with Some l => flat_map items_f l | None => [] end in
    if in_strs name text_break_elements then [Boundary]
    else if in_strs name text_block_elements then Boundary :: l ++ [Boundary] else l
  | _ => []
  end.
Lemma br_spec name : in_strs name text_break_elements = true <-> name = u "br".
Proof. rewrite in_strs_In. cbn [text_break_elements In]. split; [intros [<-|[]]; reflexivity|intros ->; left; reflexivity]. Qed.
Lemma block_spec name : in_strs name text_block_elements = true <-> is_block name.
Proof. rewrite in_strs_In. reflexivity. Qed.
Definition wrap (name : str) (l : list item) : list item :=
  if in_strs name text_break_elements then [Boundary] else if in_strs name text_block_elements then Boundary :: l ++ [Boundary] else l.
Lemma around_wrap name l r : around name l r <-> r = wrap name l.
Proof.
  unfold around, wrap. destruct (in_strs name text_break_elements) eqn:E1.
  - apply br_spec in E1. split; [intros [[_ ->]|[[H _]|[H _]]]; [reflexivity|contradiction|contradiction]|intros ->; left; split; [exact E1|reflexivity]].
  - assert (N1 : name <> u "br") by (intros H; apply br_spec in H; congruence). destruct (in_strs name text_block_elements) eqn:E2.
    + apply block_spec in E2. split; [intros [[H _]|[[_ [_ ->]]|[_ [H _]]]]; [contradiction|reflexivity|contradiction]|intros ->; right; left; repeat split; assumption].
    + assert (N2 : ~ is_block name) by (intros H; apply block_spec in H; congruence).
      split; [intros [[H _]|[[_ [H _]]|[_ [_ ->]]]]; [contradiction|contradiction|reflexivity]|intros ->; right; right; repeat split; assumption].
Qed.
Lemma items_elem name ns attrs cs tc : items_f (NElem name ns attrs cs tc) = wrap name (flat_map items_f cs ++ match tc with Some l => flat_map items_f l | None => [] end).
Proof. reflexivity. Qed.
Lemma lines_all_of l : Forall (fun n => lines n (items_f n)) l -> lines_all l (flat_map items_f l).
Proof. induction 1; [constructor|]. cbn [flat_map]. constructor; assumption. Qed.
Lemma lines_exist n : lines n (items_f n).
Proof.
  induction n as [d|d|d|d|cs IH|name ns attrs cs tc IH IHt] using node_ind'; try constructor.
  - apply lines_all_of, IH.
  - rewrite items_elem. destruct tc as [l|].
    + apply (l_template _ _ _ _ _ (flat_map items_f cs) (flat_map items_f l)); [apply lines_all_of, IH|apply lines_all_of, IHt; reflexivity|apply around_wrap; reflexivity].
    + rewrite app_nil_r. apply (l_element _ _ _ _ (flat_map items_f cs)); [apply lines_all_of, IH|apply around_wrap; reflexivity].
Qed.
Scheme lines_mut := Minimality for lines Sort Prop with lines_all_mut := Minimality for lines_all Sort Prop.
Lemma lines_unique n l : lines n l -> l = items_f n.
Proof.
  intros H. apply (lines_mut (fun n l => l = items_f n) (fun ns l => l = flat_map items_f ns)) with (n := n) (l := l); try reflexivity; try exact H.
  - intros cs l0 _ E. exact E.
  - intros name ns attrs cs l0 r _ E A. apply around_wrap in A. rewrite items_elem, app_nil_r, <- E. exact A.
  - intros name ns attrs cs ct l0 l1 r _ E _ E' A. apply around_wrap in A. rewrite items_elem, <- E, <- E'. exact A.
  - intros m ns l0 l1 _ E _ E'. cbn [flat_map]. congruence.
Qed.

Definition step (b : bool) (c : list (list str) * list str) (i : item) : list (list str) * list str :=
  match i with Words d => (fst c, snd c ++ text_piece b d) | Boundary => text_break c end.
Definition task_size (t : task) : nat := match t with Enter n => text_size n | Exit _ => 1%nat end.
Definition tasks_size (l : list task) : nat := fold_right (fun c a => task_size c + a)%nat O l.
Lemma tasks_app a b : tasks_size (a ++ b) = (tasks_size a + tasks_size b)%nat.
Proof. induction a as [|n a IH]; [reflexivity|]. cbn [app tasks_size fold_right]. fold (tasks_size (a ++ b)) (tasks_size a). lia. Qed.
Lemma tasks_enter l : tasks_size (map Enter l) = sizes l.
Proof. induction l as [|n l IH]; [reflexivity|]. cbn [map tasks_size sizes fold_right task_size]. fold (tasks_size (map Enter l)) (sizes l). lia. Qed.
Definition task_items (t : task) : list item := match t with Enter n => items_f n | Exit _ => [Boundary] end.
Lemma enter_items l : flat_map task_items (map Enter l) = flat_map items_f l.
Proof. induction l as [|n l IH]; [reflexivity|]. cbn [map flat_map task_items]. rewrite IH. reflexivity. Qed.
Lemma items_kids name ns attrs cs tc : items_f (NElem name ns attrs cs tc) = wrap name (flat_map items_f cs ++ flat_map items_f (template_of (NElem name ns attrs cs tc))).
Proof. rewrite items_elem. destruct tc as [l|]; cbn [template_of flat_map items_f]; rewrite ?app_nil_r; reflexivity. Qed.
Definition outc (c : list (list str) * list str) := fst c ++ [snd c].
Lemma chunks_spec b fuel : forall st c, (tasks_size st <= fuel)%nat -> chunks_loop fuel b st c = Some (outc (fold_left (step b) (flat_map task_items st) c)).
Proof.
  induction fuel as [|fuel IH]; intros st c H.
  - destruct st as [|t st]; [reflexivity|]. cbn [tasks_size fold_right] in H. destruct t as [n|n]; [destruct n; cbn [task_size text_size] in H; lia|cbn [task_size] in H; lia].
  - destruct st as [|t st]; [reflexivity|]. cbn [chunks_loop flat_map]. cbn [tasks_size fold_right] in H. fold (tasks_size st) in H. rewrite fold_left_app.
    destruct t as [n|n]; cbn [task_size task_items] in *; [|rewrite IH by lia; reflexivity].
    destruct n as [d|d|d|d|cs|name ns attrs cs tc].
    + rewrite IH by (cbn [text_size] in H; lia). reflexivity.
    + cbn [name_in children_of template_of map app]. rewrite IH by (cbn [text_size] in H; lia). reflexivity.
    + cbn [name_in children_of template_of map app]. rewrite IH by (cbn [text_size] in H; lia). reflexivity.
    + cbn [name_in children_of template_of map app]. rewrite IH by (cbn [text_size] in H; lia). reflexivity.
    + cbn [name_in children_of template_of map app items_f]. rewrite text_size_doc in H. rewrite IH by (rewrite tasks_app, tasks_enter; lia). rewrite flat_map_app, enter_items, fold_left_app. reflexivity.
    + cbn [name_in children_of]. rewrite items_kids. unfold wrap. rewrite text_size_elem in H. destruct (in_strs name text_break_elements); [rewrite IH by lia; reflexivity|].
      destruct (in_strs name text_block_elements).
      * rewrite IH by (rewrite !tasks_app, !tasks_enter; cbn [tasks_size fold_right task_size]; fold (tasks_size st); lia). rewrite !flat_map_app, !enter_items. cbn [flat_map task_items]. cbn [fold_left]. rewrite !fold_left_app. reflexivity.
      * rewrite IH by (rewrite !tasks_app, !tasks_enter; lia). rewrite !flat_map_app, !enter_items, !fold_left_app. reflexivity.
Qed.

Lemma nonempty_app {A} (a b : list (list A)) : nonempty (a ++ b) = nonempty a ++ nonempty b. Proof. apply filter_app. Qed.
Definition cont (b : bool) (last : list str) (l : list item) : list (list str) :=
  match paragraphs l with p :: ps => (last ++ pieces b p) :: map (pieces b) ps | [] => [last] end.
Lemma paragraphs_cons l : exists p ps, paragraphs l = p :: ps.
Proof. destruct l as [|[d|] l]; cbn [paragraphs]; [exists [], []; reflexivity| |eexists; eexists; reflexivity]. destruct (paragraphs l); eexists; eexists; reflexivity. Qed.
Lemma fold_paragraphs b l : forall c, nonempty (outc (fold_left (step b) l c)) = nonempty (fst c) ++ nonempty (cont b (snd c) l).
Proof.
  induction l as [|[d|] l IH]; intros c.
  - cbn [fold_left]. unfold outc, cont. cbn [paragraphs map]. rewrite nonempty_app. replace (pieces b []) with (@nil str) by (destruct b; reflexivity). rewrite app_nil_r. reflexivity.
  - cbn [fold_left step]. rewrite IH. cbn [fst snd]. f_equal. unfold cont. cbn [paragraphs]. destruct (paragraphs_cons l) as (p & ps & ->).
    rewrite piece_pieces. change (d :: p) with ([d] ++ p). rewrite pieces_app, <- app_assoc. reflexivity.
  - cbn [fold_left step]. rewrite IH. unfold cont at 2. cbn [paragraphs]. replace (pieces b []) with (@nil str) by (destruct b; reflexivity). rewrite app_nil_r.
    assert (E : nonempty (cont b [] l) = nonempty (map (pieces b) (paragraphs l))) by (unfold cont; destruct (paragraphs_cons l) as (p & ps & ->); reflexivity).
    unfold text_break. destruct (snd c) as [|x xs] eqn:Es; [rewrite Es; rewrite E; reflexivity|]. cbn [fst snd]. rewrite nonempty_app, E, <- app_assoc. reflexivity.
Qed.

Lemma join_match sep l : match l with [] => [] | _ => join sep l end = join sep l. Proof. destruct l; reflexivity. Qed.
Lemma flat_nonempty {A} (f : list A -> str) l : flat_map (fun chunk => match chunk with [] => [] | _ => [f chunk] end) l = map f (nonempty l).
Proof. induction l as [|[|x c] l IH]; [reflexivity|exact IH|]. cbn [flat_map nonempty filter map app]. rewrite IH. reflexivity. Qed.

Lemma to_text_plain sep b n l : texts n l -> to_text sep b false n = Some (join sep (pieces b l)).
Proof.
  intros H. apply texts_unique in H. subst l.
  assert (G : match collect (text_size n) b [n] [] with Some parts => Some (match parts with [] => [] | _ => join sep parts end) | None => None end = Some (join sep (pieces b (texts_f n)))).
  { rewrite collect_spec by (cbn [sizes fold_right]; lia). cbn [flat_map app]. rewrite app_nil_r, join_match. reflexivity. }
  destruct n as [d|d|d|d|cs|name ns attrs cs tc]; try exact G. cbn [to_text texts_f]. rewrite <- piece_pieces. unfold text_piece. destruct (if b then strip d else d); reflexivity.
Qed.
Lemma to_text_blocks sep b n l : lines n l -> to_text sep b true n = Some (join sep (map (join (if b then u " " else [])) (nonempty (map (pieces b) (paragraphs l))))).
Proof.
  intros H. apply lines_unique in H. subst l.
  assert (G : match chunks_loop (text_size n) b [Enter n] ([], []) with
      | Some chunks => let texts := flat_map (fun chunk => match chunk with [] => [] | _ => [join (if b then u " " else []) chunk] end) chunks in Some (match texts with [] => [] | _ => join sep texts end)
      | None => None end = Some (join sep (map (join (if b then u " " else [])) (nonempty (map (pieces b) (paragraphs (items_f n))))))).
  { rewrite chunks_spec by (cbn [tasks_size fold_right task_size]; lia). cbv zeta. rewrite flat_nonempty, fold_paragraphs, join_match. cbn [fst snd nonempty filter app flat_map task_items]. rewrite app_nil_r.
    unfold cont. destruct (paragraphs_cons (items_f n)) as (p & ps & ->). reflexivity. }
  destruct n as [d|d|d|d|cs|name ns attrs cs tc]; try exact G. cbn [to_text items_f paragraphs map]. rewrite <- piece_pieces. unfold text_piece. destruct (if b then strip d else d); reflexivity.
Qed.

(* ---------- :contains() ---------- *)
Lemma join_nil sep : join sep [] = []. Proof. reflexivity. Qed.
Lemma join_app_sep sep a b : a <> [] -> b <> [] -> join sep (a ++ b) = join sep a ++ sep ++ join sep b.
Proof.
  intros Ha Hb. induction a as [|x a IH]; [congruence|]. destruct a as [|y a].
  - destruct b as [|z b]; [congruence|]. reflexivity.
  - change (join sep ((x :: y :: a) ++ b)) with (x ++ sep ++ join sep ((y :: a) ++ b)). rewrite IH by discriminate. change (join sep (x :: y :: a)) with (x ++ sep ++ join sep (y :: a)). rewrite <- !app_assoc. reflexivity.
Qed.
Lemma join_nonempty sep l : (forall x, In x l -> x <> []) -> l <> [] -> join sep l <> [].
Proof. intros H Hl. destruct l as [|x [|y l]]; [congruence| |]; specialize (H x (or_introl eq_refl)); destruct x; try congruence; discriminate. Qed.
Lemma pieces_ne b l x : In x (pieces b l) -> x <> [].
Proof. unfold pieces, nonempty. intros I. apply filter_In in I as [_ E]. intros ->. discriminate E. Qed.
Lemma join_join sep (ls : list (list str)) : (forall l x, In l ls -> In x l -> x <> []) -> join sep (nonempty (map (join sep) ls)) = join sep (List.concat ls).
Proof.
  induction ls as [|l ls IH]; intros H; [reflexivity|]. cbn [map List.concat]. specialize (IH (fun l' x I => H l' x (or_intror I))).
  destruct l as [|x l]; [cbn [join nonempty filter app]; exact IH|].
  assert (N1 : join sep (x :: l) <> []) by (apply join_nonempty; [intros y I; apply (H (x :: l) y (or_introl eq_refl) I)|discriminate]).
  unfold nonempty. cbn [filter]. fold (nonempty (map (join sep) ls)). destruct (join sep (x :: l)) as [|c s] eqn:E; [congruence|]. rewrite <- E.
  destruct (nonempty (map (join sep) ls)) as [|y ys] eqn:Ey.
  - cbn [join]. destruct (List.concat ls) as [|z zs] eqn:Ez; [rewrite app_nil_r; reflexivity|]. exfalso.
    assert (Hz : join sep (z :: zs) <> []). { apply join_nonempty; [|discriminate]. intros w Iw. rewrite <- Ez in Iw. apply in_concat in Iw as (l' & I1 & I2). apply (H l' w (or_intror I1) I2). }
    apply Hz. rewrite <- IH. reflexivity.
  - rewrite <- Ey in *. rewrite (join_app_sep sep (x :: l) (List.concat ls)); [|discriminate|].
    + rewrite <- IH. rewrite Ey. change (join sep (join sep (x :: l) :: y :: ys)) with (join sep (x :: l) ++ sep ++ join sep (y :: ys)). reflexivity.
    + intros Hc. rewrite Hc in IH. cbn [join] in IH. apply (join_nonempty sep (nonempty (map (join sep) ls))); [|rewrite Ey; discriminate|exact IH].
      intros w Iw. unfold nonempty in Iw. apply filter_In in Iw as [_ Ew]. intros ->. discriminate Ew.
Qed.
Lemma pieces_concat b (ls : list (list str)) : pieces b (List.concat ls) = List.concat (map (pieces b) ls).
Proof. induction ls as [|l ls IH]; [destruct b; reflexivity|]. cbn [List.concat map]. rewrite pieces_app, IH. reflexivity. Qed.
Lemma contains_list l : Forall (fun n => contains_text n = join (u " ") (pieces true (texts_f n))) l ->
  join (u " ") (nonempty (map contains_text l)) = join (u " ") (pieces true (flat_map texts_f l)).
Proof.
  intros H. rewrite flat_map_concat_map, pieces_concat, map_map. rewrite <- join_join.
  - rewrite map_map. f_equal. f_equal. induction H as [|n l A H IH]; [reflexivity|]. cbn [map]. rewrite A, IH. reflexivity.
  - intros l' x I1 I2. apply in_map_iff in I1 as (n & <- & _). exact (pieces_ne true _ x I2).
Qed.
Lemma contains_spec n : contains_text n = join (u " ") (pieces true (texts_f n)).
Proof.
  induction n as [d|d|d|d|cs IH|name ns attrs cs tc IH IHt] using node_ind'; try reflexivity.
  - cbn [contains_text texts_f]. unfold pieces, nonempty. cbn [map filter]. destruct (strip d); reflexivity.
  - exact (contains_list cs IH).
  - cbn [contains_text texts_f]. destruct tc as [l|].
    + assert (L : Forall (fun n => contains_text n = join (u " ") (pieces true (texts_f n))) (cs ++ [NDocument l])).
      { apply Forall_app. split; [exact IH|]. constructor; [|constructor]. exact (contains_list l (IHt l eq_refl)). }
      pose proof (contains_list _ L) as E. rewrite map_app, flat_map_app in E. cbn [map flat_map texts_f contains_text] in E. rewrite app_nil_r in E. exact E.
    + rewrite !app_nil_r. exact (contains_list cs IH).
Qed.
