(* PROOFS: structural transforms *)
From Coq Require Import Lia.
From Verif Require Import ListFacts Str StrFacts SerializerModel SerTreeProofs MiscModel TextModel TextSpec TextProofs PrettySpec TransModel TransSpec.
Open Scope list_scope. Open Scope N_scope.

Definition nodes_size (l : list node) : nat := fold_right (fun c a => tree_size c + a)%nat O l.
Lemma nodes_size_app a b : nodes_size (a ++ b) = (nodes_size a + nodes_size b)%nat.
Proof. induction a as [|n a IH]; [reflexivity|]. cbn [app nodes_size fold_right]. fold (nodes_size (a ++ b)) (nodes_size a). lia. Qed.
Lemma nodes_size_cons n a : nodes_size (n :: a) = (tree_size n + nodes_size a)%nat. Proof. reflexivity. Qed.
Lemma size_doc cs : tree_size (NDocument cs) = S (nodes_size cs). Proof. reflexivity. Qed.
Lemma size_elem name ns attrs cs tc : tree_size (NElem name ns attrs cs tc) = S (nodes_size cs + match tc with Some l => nodes_size l | None => O end).
Proof. reflexivity. Qed.
Lemma size_pos n : (1 <= tree_size n)%nat. Proof. destruct n; cbn [tree_size]; lia. Qed.
Lemma size_moved n : (nodes_size (moved_nodes n) < tree_size n)%nat.
Proof.
  destruct n as [d|d|d|d|cs|name ns attrs cs tc]; [cbn; lia|cbn; lia|cbn; lia|cbn; lia| |].
  - rewrite size_doc. cbn [moved_nodes]. lia.
  - rewrite size_elem. cbn [moved_nodes]. rewrite nodes_size_app. destruct tc; cbn [nodes_size fold_right]; lia.
Qed.
Lemma map_snd_pair {A B} (k : A) (l : list B) : map snd (map (pair k) l) = l.
Proof. rewrite map_map. apply map_id. Qed.

(* ---------- what one visit does ---------- *)
(* a node produced by run_ts is at most as large as the visited one *)
Lemma size_empty n : (tree_size (empty_node n) <= tree_size n)%nat.
Proof.
  destruct n as [d|d|d|d|cs|name ns attrs cs tc]; cbn [empty_node]; try lia.
  - rewrite !size_doc. cbn [nodes_size fold_right]. lia.
  - rewrite !size_elem. destruct tc; cbn [nodes_size fold_right]; lia.
Qed.
Lemma size_with_attrs a n : tree_size (with_attrs a n) = tree_size n. Proof. destruct n; reflexivity. Qed.
Lemma size_edit fs : forall n, tree_size (edit_attrs fs n) = tree_size n.
Proof. unfold edit_attrs. induction fs as [|f fs IH]; intros n; [reflexivity|]. cbn [fold_left]. rewrite IH. destruct (f n); [apply size_with_attrs|reflexivity]. Qed.
Definition small (n : node) (o : outcome) : Prop :=
  match o with Kept n' => (tree_size n' <= tree_size n)%nat | Gone l => (nodes_size (map snd l) < tree_size n)%nat end.
Lemma small_le n m o : (tree_size n <= tree_size m)%nat -> small n o -> small m o.
Proof. destruct o; cbn; lia. Qed.
Lemma run_small ts : forall idx p s l r n, small n (run_ts idx ts p s l r n).
Proof.
  induction ts as [|t ts IH]; intros idx p s l r n; [cbn; lia|].
  assert (G0 : small n (Gone [])) by (cbn; pose proof (size_pos n); lia).
  assert (GM : forall k, small n (Gone (map (pair k) (moved_nodes n)))) by (intros k; cbn [small]; rewrite map_snd_pair; apply size_moved).
  assert (GE : forall i, small n (run_ts i ts p s l r (empty_node n))) by (intros i; apply (small_le (empty_node n)); [apply size_empty|apply IH]).
  cbn [run_ts]. destruct t as [sel patch|sel|sel|sel|sel fs|sel fs| | |sk tr bl].
  - destruct (is_element n && sel n); [|apply IH]. eapply small_le; [|apply IH]. rewrite size_with_attrs. lia.
  - destruct (is_element n && sel n); [exact G0|apply IH].
  - destruct (is_element n && sel n); [apply GM|apply IH].
  - destruct (is_element n && sel n); [apply GE|apply IH].
  - destruct (match sel with None => true | Some s0 => is_element n && s0 n end); [|apply IH]. destruct (first_action fs n); [apply IH|exact G0|apply GM|apply GE].
  - destruct (is_element n && _); [|apply IH]. eapply small_le; [|apply IH]. rewrite size_edit. lia.
  - destruct n; try apply IH; exact G0.
  - destruct n; try apply IH; exact G0.
  - destruct n as [d|d|d|d|cs|name ns attrs cs tc]; try apply IH. destruct s; [apply IH|]. destruct d as [|c d]; [apply IH|]. destruct (collapsed_text _ _ _ _ _ _); [exact G0|].
    eapply small_le; [|apply IH]. cbn; lia.
Qed.

(* the walk always finishes *)
Lemma walk_total fuel : forall ts p s l todo, (nodes_size (map snd todo) <= fuel)%nat -> walk fuel ts p s l todo <> None.
Proof.
  induction fuel as [|fuel IH]; intros ts p s l todo H.
  - destruct todo as [|[m n] rest]; [discriminate|]. cbn [map snd] in H. rewrite nodes_size_cons in H. pose proof (size_pos n). lia.
  - destruct todo as [|[m n] rest]; [discriminate|]. cbn [walk]. cbn [map snd] in H. rewrite nodes_size_cons in H.
    pose proof (run_small (skipn m ts) m p s l (map snd rest) n) as R. destruct (run_ts m (skipn m ts) p s l (map snd rest) n) as [n'|g]; cbn [small] in R.
    + destruct n' as [d|d|d|d|cs|name ns attrs cs tc]; try (apply IH; pose proof (size_pos n); lia).
      * rewrite size_doc in R. destruct (walk fuel ts None s [] (map (pair O) cs)) eqn:E; [apply IH; lia|]. exfalso. revert E. apply IH. rewrite map_snd_pair. lia.
      * rewrite size_elem in R. cbv zeta. destruct (walk fuel ts (Some name) _ [] (map (pair O) cs)) eqn:E; [|exfalso; revert E; apply IH; rewrite map_snd_pair; lia].
        destruct tc as [tl|]; [|apply IH; lia].
        destruct (walk fuel ts None _ [] (map (pair O) tl)) eqn:E2; [apply IH; lia|exfalso; revert E2; apply IH; rewrite map_snd_pair; lia].
    + apply IH. rewrite map_app, nodes_size_app. lia.
Qed.
Lemma apply_walk_total ts n : exists n', apply_walk ts n = Some n'.
Proof.
  unfold apply_walk. destruct ts as [|t ts]; [eexists; reflexivity|]. destruct n as [d|d|d|d|cs|name ns attrs cs tc]; try (eexists; reflexivity).
  - destruct (walk _ (t :: ts) None false [] (map (pair O) cs)) eqn:E; [eexists; reflexivity|]. exfalso. revert E. apply walk_total. rewrite map_snd_pair, size_doc. lia.
  - destruct (walk _ (t :: ts) (Some name) false [] (map (pair O) cs)) eqn:E; [|exfalso; revert E; apply walk_total; rewrite map_snd_pair, size_elem; lia].
    destruct tc as [l0|]; [|eexists; reflexivity].
    destruct (walk _ (t :: ts) None false [] (map (pair O) l0)) eqn:E2; [eexists; reflexivity|exfalso; revert E2; apply walk_total; rewrite map_snd_pair, size_elem; lia].
Qed.

(* ---------- local transforms: the effect on a node without its content ---------- *)
Inductive hres := HGone | HHoist (k : nat) | HKeep (a : attrs_t) (cleared : bool).
Definition hoist_if (cl : bool) (k : nat) : hres := if cl then HGone else HHoist k.
Fixpoint hrun (idx : nat) (ts : list transform) (n : node) (cl : bool) : hres :=
  match ts with
  | [] => HKeep (node_attrs n) cl
  | t :: ts =>
    match t with
    | TSetAttrs sel patch => if is_element n && sel n then hrun (S idx) ts (with_attrs (set_attrs (node_attrs n) patch) n) cl else hrun (S idx) ts n cl
    | TDrop sel => if is_element n && sel n then HGone else hrun (S idx) ts n cl
    | TUnwrap sel => if is_element n && sel n then hoist_if cl (S idx) else hrun (S idx) ts n cl
    | TEmpty sel => if is_element n && sel n then hrun (S idx) ts n true else hrun (S idx) ts n cl
    | TDecide sel fs =>
      if match sel with None => true | Some s => is_element n && s n end then
        match first_action fs n with AKeep => hrun (S idx) ts n cl | AEmpty => hrun (S idx) ts n true | AUnwrap => hoist_if cl idx | ADrop => HGone end
      else hrun (S idx) ts n cl
    | TEditAttrs sel fs => if is_element n && match sel with None => true | Some s => s n end then hrun (S idx) ts (edit_attrs fs n) cl else hrun (S idx) ts n cl
    | TDropComments => match n with NComment _ | NPI _ => HGone | _ => hrun (S idx) ts n cl end
    | TDropDoctype => match n with NDoctype _ => HGone | _ => hrun (S idx) ts n cl end
    | TCollapse _ _ _ => hrun (S idx) ts n cl
    end
  end.
Definition clear_if (cl : bool) (n : node) : node := if cl then empty_node n else n.
Lemma head_clear cl n : same_head n (clear_if cl n).
Proof. destruct cl; [|constructor]. destruct n; constructor. Qed.
Lemma head_elem n m : same_head n m -> is_element n = is_element m. Proof. destruct 1; reflexivity. Qed.
Lemma head_attrs n m : same_head n m -> node_attrs n = node_attrs m. Proof. destruct 1; reflexivity. Qed.
Lemma head_with a n m : same_head n m -> same_head (with_attrs a n) (with_attrs a m). Proof. destruct 1; constructor. Qed.
Lemma head_sym n m : same_head n m -> same_head m n. Proof. destruct 1; constructor. Qed.
Lemma first_local fs n m : (forall f, In f fs -> local f) -> same_head n m -> first_action fs n = first_action fs m.
Proof. induction fs as [|f fs IH]; intros L H; [reflexivity|]. cbn [first_action]. rewrite (L f (or_introl eq_refl) n m H). rewrite (IH (fun g I => L g (or_intror I)) H). reflexivity. Qed.
Lemma edit_head fs : forall n m, (forall f, In f fs -> local f) -> same_head n m -> same_head (edit_attrs fs n) (edit_attrs fs m).
Proof.
  unfold edit_attrs. induction fs as [|f fs IH]; intros n m L H; [exact H|]. cbn [fold_left]. apply IH; [intros g I; apply L; right; exact I|].
  rewrite (L f (or_introl eq_refl) n m H). destruct (f m); [apply head_with, H|exact H].
Qed.
Lemma with_clear a cl n : with_attrs a (clear_if cl n) = clear_if cl (with_attrs a n).
Proof. destruct cl; destruct n; reflexivity. Qed.
Lemma edit_clear fs cl : forall n, (forall f, In f fs -> local f) -> edit_attrs fs (clear_if cl n) = clear_if cl (edit_attrs fs n).
Proof.
  unfold edit_attrs. induction fs as [|f fs IH]; intros n L; [reflexivity|]. cbn [fold_left]. rewrite <- (L f (or_introl eq_refl) n _ (head_clear cl n)).
  destruct (f n); [rewrite with_clear|]; apply IH; intros g I; apply L; right; exact I.
Qed.
Lemma clear_clear cl n : empty_node (clear_if cl n) = clear_if true n.
Proof. destruct cl; destruct n as [d|d|d|d|cs|name ns attrs cs tc]; try reflexivity. destruct tc; reflexivity. Qed.
Lemma moved_clear cl n (k : nat) : map (pair k) (moved_nodes (clear_if cl n)) = if cl then [] else map (pair k) (moved_nodes n).
Proof. destruct cl; destruct n as [d|d|d|d|cs|name ns attrs cs tc]; try reflexivity. destruct tc; reflexivity. Qed.
Definition outcome_of (n : node) (h : hres) : outcome :=
  match h with HGone => Gone [] | HHoist k => Gone (map (pair k) (moved_nodes n)) | HKeep a cl => Kept (clear_if cl (with_attrs a n)) end.
Lemma outcome_with a n h : outcome_of (with_attrs a n) h = outcome_of n h.
Proof. destruct h; destruct n; reflexivity. Qed.
Lemma outcome_edit fs : forall n h, outcome_of (edit_attrs fs n) h = outcome_of n h.
Proof. unfold edit_attrs. induction fs as [|f fs IH]; intros n h; [reflexivity|]. cbn [fold_left]. rewrite IH. destruct (f n); [apply outcome_with|reflexivity]. Qed.
Lemma hoist_outcome cl n k : Gone (map (pair k) (moved_nodes (clear_if cl n))) = outcome_of n (hoist_if cl k).
Proof. rewrite moved_clear. destruct cl; reflexivity. Qed.

Lemma run_local ts : Forall local_t ts -> forall idx p s l r n cl, run_ts idx ts p s l r (clear_if cl n) = outcome_of n (hrun idx ts n cl).
Proof.
  induction 1 as [|t ts Lt Lts IH]; intros idx p s l r n cl.
  - cbn [run_ts hrun outcome_of]. f_equal. f_equal. destruct n; reflexivity.
  - pose proof (head_clear cl n) as Hh. cbn [run_ts hrun]. rewrite <- (head_elem _ _ Hh), <- (head_attrs _ _ Hh).
    destruct t as [sel patch|sel|sel|sel|sel fs|sel fs| | |sk tr bl]; cbn [local_t] in Lt.
    + rewrite <- (Lt _ _ Hh). destruct (is_element n && sel n); [|apply IH]. rewrite with_clear, IH, outcome_with. reflexivity.
    + rewrite <- (Lt _ _ Hh). destruct (is_element n && sel n); [reflexivity|apply IH].
    + rewrite <- (Lt _ _ Hh). destruct (is_element n && sel n); [apply hoist_outcome|apply IH].
    + rewrite <- (Lt _ _ Hh). destruct (is_element n && sel n); [|apply IH]. rewrite clear_clear. apply IH.
    + destruct Lt as [L1 L2]. rewrite <- (first_local fs _ _ L2 Hh).
      replace (match sel with None => true | Some s0 => is_element n && s0 (clear_if cl n) end) with (match sel with None => true | Some s0 => is_element n && s0 n end) by (destruct sel as [s0|]; [rewrite (L1 _ _ Hh)|]; reflexivity).
      destruct (match sel with None => true | Some s0 => is_element n && s0 n end); [|apply IH]. destruct (first_action fs n); [apply IH|reflexivity|apply hoist_outcome|rewrite clear_clear; apply IH].
    + destruct Lt as [L1 L2].
      replace (match sel with None => true | Some s0 => s0 (clear_if cl n) end) with (match sel with None => true | Some s0 => s0 n end) by (destruct sel as [s0|]; [rewrite (L1 _ _ Hh)|]; reflexivity).
      destruct (is_element n && _); [|apply IH]. rewrite edit_clear by exact L2. rewrite IH. apply outcome_edit.
    + rewrite IH. destruct cl; destruct n; try reflexivity.
    + rewrite IH. destruct cl; destruct n; try reflexivity.
    + destruct Lt.
Qed.

Fixpoint bpass (ts : list transform) (m : nat) (n : node) : list node :=
  match n with
  | NDocument cs =>
    match hrun m (skipn m ts) n false with
    | HGone => [] | HHoist k => flat_map (bpass ts k) cs
    | HKeep _ cl => [NDocument (if cl then [] else flat_map (bpass ts O) cs)]
    end
  | NElem name ns attrs cs tc =>
    match hrun m (skipn m ts) n false with
    | HGone => []
    | HHoist k => flat_map (bpass ts k) cs ++ match tc with Some l => flat_map (bpass ts k) l | None => [] end
    | HKeep a cl => [NElem name ns a (if cl then [] else flat_map (bpass ts O) cs) (match tc with Some l => Some (if cl then [] else flat_map (bpass ts O) l) | None => None end)]
    end
  | _ => match hrun m (skipn m ts) n false with HKeep _ _ => [n] | _ => [] end
  end.
Definition bpass_all (ts : list transform) (todo : list (nat * node)) : list node := flat_map (fun mn => bpass ts (fst mn) (snd mn)) todo.
Lemma bpass_pair ts k l : bpass_all ts (map (pair k) l) = flat_map (bpass ts k) l.
Proof. unfold bpass_all. induction l as [|n l IH]; [reflexivity|]. cbn [map flat_map fst snd]. rewrite IH. reflexivity. Qed.
Lemma bpass_app ts a b : bpass_all ts (a ++ b) = bpass_all ts a ++ bpass_all ts b. Proof. apply flat_map_app. Qed.
Lemma Forall_skipn {A} (P : A -> Prop) m l : Forall P l -> Forall P (skipn m l).
Proof. revert l. induction m as [|m IH]; intros l H; [exact H|]. destruct H; [constructor|]. apply IH, H0. Qed.

Lemma walk_local ts fuel : Forall local_t ts -> forall p s left todo, (nodes_size (map snd todo) <= fuel)%nat ->
  walk fuel ts p s left todo = Some (rev left ++ bpass_all ts todo).
Proof.
  intros L. induction fuel as [|fuel IH]; intros p s left todo H.
  - destruct todo as [|[m n] rest]; [cbn; rewrite app_nil_r; reflexivity|]. cbn [map snd] in H. rewrite nodes_size_cons in H. pose proof (size_pos n). lia.
  - destruct todo as [|[m n] rest]; [cbn; rewrite app_nil_r; reflexivity|]. cbn [map snd] in H. rewrite nodes_size_cons in H. cbn [walk].
    change n with (clear_if false n) at 1. rewrite (run_local _ (Forall_skipn _ m ts L)). cbn [bpass_all flat_map fst snd]. fold (bpass_all ts rest).
    assert (Emp : forall p0 s0, walk fuel ts p0 s0 [] (map (pair O) []) = Some []) by (intros; destruct fuel; reflexivity).
    destruct n as [d|d|d|d|cs|name ns attrs cs tc]; cbn [bpass].
    1-4: destruct (hrun m (skipn m ts) _ false) as [|k|a cl]; cbn [outcome_of moved_nodes map app with_attrs];
      [rewrite IH by (cbn [tree_size] in H; lia); reflexivity|rewrite IH by (cbn [tree_size] in H; lia); reflexivity|].
    1-4: destruct cl; cbn [clear_if empty_node]; rewrite IH by (cbn [tree_size] in H; lia); cbn [rev]; rewrite <- app_assoc; reflexivity.
    + rewrite size_doc in H. destruct (hrun m (skipn m ts) _ false) as [|k|a cl]; cbn [outcome_of moved_nodes with_attrs].
      * cbn [app]. rewrite IH by lia. reflexivity.
      * rewrite IH by (rewrite map_app, nodes_size_app, map_snd_pair; lia). rewrite bpass_app, bpass_pair. reflexivity.
      * destruct cl; cbn [clear_if empty_node].
        -- rewrite Emp. rewrite IH by lia. cbn [rev]. rewrite <- app_assoc. reflexivity.
        -- rewrite IH by (rewrite map_snd_pair; lia). rewrite IH by lia. cbn [rev app]. rewrite bpass_pair, <- app_assoc. reflexivity.
    + rewrite size_elem in H. destruct (hrun m (skipn m ts) _ false) as [|k|a cl]; cbn [outcome_of moved_nodes with_attrs].
      * cbn [app]. rewrite IH by lia. reflexivity.
      * rewrite IH by (rewrite map_app, nodes_size_app, map_snd_pair, nodes_size_app; destruct tc; cbn [nodes_size fold_right]; try fold (nodes_size l); lia).
        rewrite bpass_app, bpass_pair, flat_map_app. destruct tc; reflexivity.
      * destruct cl; cbn [clear_if empty_node].
        -- cbv zeta. rewrite Emp. destruct tc as [l|]; [rewrite Emp|]; rewrite IH by lia; cbn [rev]; rewrite <- app_assoc; reflexivity.
        -- cbv zeta. rewrite IH by (rewrite map_snd_pair; lia). destruct tc as [l|].
           ++ rewrite IH by (rewrite map_snd_pair; lia). rewrite IH by lia. cbn [rev app]. rewrite !bpass_pair, <- app_assoc. reflexivity.
           ++ rewrite IH by lia. cbn [rev app]. rewrite !bpass_pair, <- app_assoc. reflexivity.
Qed.

Definition inside_b (ts : list transform) (n : node) : node := inside (bpass ts O) n.
Lemma apply_walk_local ts n : ts <> [] -> Forall local_t ts -> apply_walk ts n = Some (inside (bpass ts O) n).
Proof.
  intros N1 L. unfold apply_walk. destruct ts as [|t ts]; [congruence|]. destruct n as [d|d|d|d|cs|name ns attrs cs tc]; try reflexivity.
  - rewrite walk_local by (try exact L; rewrite map_snd_pair, size_doc; lia). cbn [rev app]. rewrite bpass_pair. reflexivity.
  - rewrite walk_local by (try exact L; rewrite map_snd_pair, size_elem; lia). cbn [rev app]. rewrite bpass_pair. destruct tc as [l|]; [|reflexivity].
    rewrite walk_local by (try exact L; rewrite map_snd_pair, size_elem; lia). cbn [rev app]. rewrite bpass_pair. reflexivity.
Qed.

(* ---------- fusing walks ---------- *)
Lemma hrun_head ts : Forall local_t ts -> forall idx n m cl, same_head n m -> hrun idx ts n cl = hrun idx ts m cl.
Proof.
  induction 1 as [|t ts Lt Lts IH]; intros idx n m cl Hh.
  - cbn [hrun]. rewrite (head_attrs _ _ Hh). reflexivity.
  - cbn [hrun]. rewrite <- (head_elem _ _ Hh), <- (head_attrs _ _ Hh). destruct t as [sel patch|sel|sel|sel|sel fs|sel fs| | |sk tr bl]; cbn [local_t] in Lt.
    + rewrite <- (Lt _ _ Hh). rewrite (IH _ n m cl Hh). destruct (is_element n && sel n); [|reflexivity]. apply IH, head_with, Hh.
    + rewrite <- (Lt _ _ Hh), (IH _ n m cl Hh). reflexivity.
    + rewrite <- (Lt _ _ Hh), (IH _ n m cl Hh). reflexivity.
    + rewrite <- (Lt _ _ Hh), (IH _ n m cl Hh), (IH _ n m true Hh). reflexivity.
    + destruct Lt as [L1 L2]. rewrite <- (first_local fs _ _ L2 Hh), (IH _ n m cl Hh), (IH _ n m true Hh). destruct sel as [s0|]; [rewrite (L1 _ _ Hh)|]; reflexivity.
    + destruct Lt as [L1 L2]. rewrite (IH _ n m cl Hh), (IH _ _ _ cl (edit_head fs _ _ L2 Hh)). destruct sel as [s0|]; [rewrite (L1 _ _ Hh)|]; reflexivity.
    + rewrite (IH _ n m cl Hh). destruct Hh; reflexivity.
    + rewrite (IH _ n m cl Hh). destruct Hh; reflexivity.
    + destruct Lt.
Qed.
Lemma hrun_idx ts : Forall (fun t => ~ hoists t) ts -> forall i j n cl, hrun i ts n cl = hrun j ts n cl.
Proof.
  induction 1 as [|t ts Ht Hts IH]; intros i j n cl; [reflexivity|]. cbn [hrun]. destruct t as [sel patch|sel|sel|sel|sel fs|sel fs| | |sk tr bl].
  - rewrite (IH (S i) (S j) _ cl), (IH (S i) (S j) n cl). reflexivity.
  - rewrite (IH (S i) (S j) n cl). reflexivity.
  - destruct Ht. exact Logic.I.
  - rewrite (IH (S i) (S j) n cl), (IH (S i) (S j) n true). reflexivity.
  - rewrite (IH (S i) (S j) n cl), (IH (S i) (S j) n true). destruct (first_action fs n) eqn:E; try reflexivity. exfalso. apply Ht. cbn [hoists]. clear -E.
    induction fs as [|f fs IHf]; [discriminate E|]. cbn [first_action] in E. destruct (f n) eqn:F; try discriminate E; [destruct (IHf E) as (g & m & I & J); exists g, m; split; [right; exact I|exact J]|].
    exists f, n. split; [left; reflexivity|exact F].
  - rewrite (IH (S i) (S j) (edit_attrs fs n) cl), (IH (S i) (S j) n cl). reflexivity.
  - rewrite (IH (S i) (S j) n cl). reflexivity.
  - rewrite (IH (S i) (S j) n cl). reflexivity.
  - apply IH.
Qed.
Lemma first_no_hoist fs n : ~ hoists (TDecide None fs) -> first_action fs n <> AUnwrap.
Proof.
  intros Ht E. apply Ht. cbn [hoists]. induction fs as [|f fs IHf]; [discriminate E|]. cbn [first_action] in E.
  destruct (f n) eqn:F; try discriminate E; [|exists f, n; split; [left; reflexivity|exact F]].
  destruct IHf as (g & m & I & J); [|exact E|exists g, m; split; [right; exact I|exact J]]. intros (g & m & I & J). apply Ht. exists g, m. split; [right; exact I|exact J].
Qed.
Definition or_clear (cl : bool) (h : hres) : hres := match h with HKeep a c => HKeep a (cl || c) | r => r end.
Lemma or_clear_true c h : or_clear true (or_clear c h) = or_clear true h. Proof. destruct h; reflexivity. Qed.
Lemma hrun_clear ts : Forall (fun t => ~ hoists t) ts -> forall i n cl, hrun i ts n cl = or_clear cl (hrun i ts n false).
Proof.
  induction 1 as [|t ts Ht Hts IH]; intros i n cl; [cbn; rewrite Bool.orb_false_r; reflexivity|]. cbn [hrun].
  assert (T : hrun (S i) ts n true = or_clear cl (hrun (S i) ts n true)) by (rewrite (IH (S i) n true); destruct (hrun (S i) ts n false); cbn [or_clear]; rewrite ?Bool.orb_true_r; reflexivity).
  destruct t as [sel patch|sel|sel|sel|sel fs|sel fs| | |sk tr bl].
  - destruct (is_element n && sel n); apply IH.
  - destruct (is_element n && sel n); [reflexivity|apply IH].
  - destruct Ht. exact Logic.I.
  - destruct (is_element n && sel n); [exact T|apply IH].
  - destruct (match sel with None => true | Some s => is_element n && s n end); [|apply IH]. pose proof (first_no_hoist fs n Ht). destruct (first_action fs n); [apply IH|reflexivity|congruence|exact T].
  - destruct (is_element n && _); apply IH.
  - destruct n; try reflexivity; apply IH.
  - destruct n; try reflexivity; apply IH.
  - apply IH.
Qed.
Lemma hrun_no_hoist ts : Forall (fun t => ~ hoists t) ts -> forall i n cl k, hrun i ts n cl <> HHoist k.
Proof.
  induction 1 as [|t ts Ht Hts IH]; intros i n cl k; [discriminate|]. cbn [hrun]. destruct t as [sel patch|sel|sel|sel|sel fs|sel fs| | |sk tr bl].
  - destruct (is_element n && sel n); apply IH.
  - destruct (is_element n && sel n); [discriminate|apply IH].
  - destruct Ht. exact Logic.I.
  - destruct (is_element n && sel n); apply IH.
  - destruct (match sel with None => true | Some s => is_element n && s n end); [|apply IH]. pose proof (first_no_hoist fs n Ht). destruct (first_action fs n); [apply IH|discriminate|congruence|apply IH].
  - destruct (is_element n && _); apply IH.
  - destruct n; try discriminate; apply IH.
  - destruct n; try discriminate; apply IH.
  - apply IH.
Qed.
Lemma with_own n : with_attrs (node_attrs n) n = n. Proof. destruct n; reflexivity. Qed.
Lemma with_with a b n : with_attrs a (with_attrs b n) = with_attrs a n. Proof. destruct n; reflexivity. Qed.
Lemma attrs_with a n : is_element n = true -> node_attrs (with_attrs a n) = a. Proof. destruct n; try discriminate; reflexivity. Qed.
Lemma edit_with fs : forall n, edit_attrs fs n = with_attrs (node_attrs (edit_attrs fs n)) n.
Proof.
  unfold edit_attrs. induction fs as [|f fs IH]; intros n; [cbn; rewrite with_own; reflexivity|]. cbn [fold_left]. rewrite IH at 1. destruct (f n); [|reflexivity]. rewrite with_with. reflexivity.
Qed.
Lemma hrun_cons i t ts n : hrun i (t :: ts) n false = match hrun i [t] n false with HKeep a cl => hrun (S i) ts (with_attrs a n) cl | r => r end.
Proof.
  cbn [hrun]. destruct t as [sel patch|sel|sel|sel|sel fs|sel fs| | |sk tr bl].
  - destruct (is_element n && sel n) eqn:E; [|rewrite with_own; reflexivity]. apply andb_prop in E as [E _]. rewrite attrs_with by exact E. reflexivity.
  - destruct (is_element n && sel n); [reflexivity|rewrite with_own; reflexivity].
  - destruct (is_element n && sel n); [reflexivity|rewrite with_own; reflexivity].
  - destruct (is_element n && sel n); rewrite with_own; reflexivity.
  - destruct (match sel with None => true | Some s => is_element n && s n end); [destruct (first_action fs n)|]; try reflexivity; rewrite with_own; reflexivity.
  - destruct (is_element n && _); [rewrite <- edit_with|rewrite with_own]; reflexivity.
  - destruct n; try reflexivity; rewrite with_own; reflexivity.
  - destruct n; try reflexivity; rewrite with_own; reflexivity.
  - rewrite with_own. reflexivity.
Qed.
Lemma hoist_bound t i n k : hrun i [t] n false = HHoist k -> k = i \/ k = S i.
Proof.
  cbn [hrun]. destruct t as [sel patch|sel|sel|sel|sel fs|sel fs| | |sk tr bl]; repeat match goal with |- context [if ?b then _ else _] => destruct b end; try discriminate.
  - intros E. injection E as <-. right. reflexivity.
  - destruct (first_action fs n); try discriminate. intros E. injection E as <-. left. reflexivity.
  - destruct n; discriminate.
  - destruct n; discriminate.
Qed.

Lemma flat_flat {A} (f g : A -> list A) l : flat_map f (flat_map g l) = flat_map (fun x => flat_map f (g x)) l.
Proof. induction l as [|x l IH]; [reflexivity|]. cbn [flat_map]. rewrite flat_map_app, IH. reflexivity. Qed.
Lemma flat_ext_F {A B} (f g : A -> list B) l : Forall (fun x => f x = g x) l -> flat_map f l = flat_map g l.
Proof. induction 1 as [|x l E F IH]; [reflexivity|]. cbn [flat_map]. rewrite E, IH. reflexivity. Qed.

Section Fuse.
Variables (t : transform) (ts : list transform).
Hypothesis Lt : local_t t.
Hypothesis Lts : Forall local_t ts.
Hypothesis Hts : Forall (fun t => ~ hoists t) ts.
Let fused m n := bpass (t :: ts) m n = flat_map (bpass ts O) (bpass [t] m n).
Lemma flat_le k l : (k <= 1)%nat -> Forall (fun n => forall m, (m <= 1)%nat -> fused m n) l -> flat_map (bpass (t :: ts) k) l = flat_map (bpass ts O) (flat_map (bpass [t] k) l).
Proof. intros Hk F. rewrite flat_flat. apply flat_ext_F. eapply Forall_impl; [|exact F]. intros n H. exact (H k Hk). Qed.
(* the head of the fused list, seen from position 0 or 1 *)
Lemma hrun_fused m n : (m <= 1)%nat ->
  hrun m (skipn m (t :: ts)) n false = match hrun m (skipn m [t]) n false with HKeep a cl => or_clear cl (hrun O ts (with_attrs a n) false) | r => r end.
Proof.
  intros Hm. destruct m as [|[|m]]; [| |lia].
  - cbn [skipn]. rewrite hrun_cons. destruct (hrun 0 [t] n false) as [|k|a cl]; try reflexivity. rewrite (hrun_clear ts Hts), (hrun_idx ts Hts 1 0). reflexivity.
  - cbn [skipn]. cbn [hrun]. rewrite with_own. rewrite (hrun_idx ts Hts 1 0). destruct (hrun 0 ts n false); reflexivity.
Qed.
Lemma skip1_hoist m n k : (m <= 1)%nat -> hrun m (skipn m [t]) n false = HHoist k -> (k <= 1)%nat.
Proof. intros Hm E. destruct m as [|[|m]]; [|discriminate E|lia]. cbn [skipn] in E. destruct (hoist_bound t 0 n k E); lia. Qed.
Lemma keep_fused m n a cl : (m <= 1)%nat -> hrun m (skipn m [t]) n false = HKeep a cl ->
  (exists a' c', hrun m (skipn m (t :: ts)) n false = HKeep a' (cl || c') /\ hrun O ts (with_attrs a n) false = HKeep a' c') \/
  (hrun m (skipn m (t :: ts)) n false = HGone /\ hrun O ts (with_attrs a n) false = HGone).
Proof.
  intros Hm E. rewrite (hrun_fused m n Hm), E. destruct (hrun 0 ts (with_attrs a n) false) as [|k|a' c'] eqn:E2; [right; split; reflexivity|exfalso; exact (hrun_no_hoist ts Hts _ _ _ _ E2)|].
  left. exists a', c'. split; reflexivity.
Qed.
Lemma fuse n : forall m, (m <= 1)%nat -> fused m n.
Proof.
  unfold fused. induction n as [d|d|d|d|cs IH|name ns attrs cs tc IH IHt] using node_ind'; intros m Hm.
  1-4: cbn [bpass]; match goal with |- match hrun _ _ ?n false with _ => _ end = _ => destruct (hrun m (skipn m [t]) n false) as [|k|a cl] eqn:E;
     [rewrite (hrun_fused m n Hm), E; reflexivity|rewrite (hrun_fused m n Hm), E; reflexivity|];
     destruct (keep_fused m n a cl Hm E) as [(a' & c' & E1 & E2)|[E1 E2]]; rewrite E1; cbn [flat_map bpass skipn]; cbn [with_attrs] in E2; rewrite E2; reflexivity end.
  - cbn [bpass]. destruct (hrun m (skipn m [t]) (NDocument cs) false) as [|k|a cl] eqn:E.
    + rewrite (hrun_fused m _ Hm), E. reflexivity.
    + rewrite (hrun_fused m _ Hm), E. apply flat_le; [exact (skip1_hoist m _ k Hm E)|exact IH].
    + destruct (keep_fused m (NDocument cs) a cl Hm E) as [(a' & c' & E1 & E2)|[E1 E2]]; rewrite E1; cbn [with_attrs] in E2; cbn [flat_map bpass skipn]; rewrite (hrun_head ts Lts O _ (NDocument cs) false) by constructor; rewrite E2; [|reflexivity].
      cbn [app]. do 2 f_equal. destruct cl; cbn [orb flat_map]; [destruct c'; reflexivity|]. destruct c'; [reflexivity|]. apply flat_le; [lia|exact IH].
  - cbn [bpass]. destruct (hrun m (skipn m [t]) (NElem name ns attrs cs tc) false) as [|k|a cl] eqn:E.
    + rewrite (hrun_fused m _ Hm), E. reflexivity.
    + rewrite (hrun_fused m _ Hm), E. assert (Hk := skip1_hoist m _ k Hm E). rewrite flat_map_app. f_equal; [apply flat_le; assumption|]. destruct tc as [l|]; [apply flat_le; [exact Hk|apply IHt; reflexivity]|reflexivity].
    + destruct (keep_fused m (NElem name ns attrs cs tc) a cl Hm E) as [(a' & c' & E1 & E2)|[E1 E2]]; rewrite E1; cbn [with_attrs] in E2; cbn [flat_map bpass skipn]; rewrite (hrun_head ts Lts O _ (NElem name ns a cs tc) false) by constructor; rewrite E2; [|reflexivity].
      cbn [app]. f_equal. f_equal.
      * destruct cl; cbn [orb flat_map]; [destruct c'; reflexivity|]. destruct c'; [reflexivity|]. apply flat_le; [lia|exact IH].
      * destruct tc as [l|]; [|reflexivity]. f_equal. destruct cl; cbn [orb flat_map]; [destruct c'; reflexivity|]. destruct c'; [reflexivity|]. apply flat_le; [lia|apply IHt; reflexivity].
Qed.
End Fuse.

Lemma inside_flat f g n : inside f (inside g n) = inside (fun x => flat_map f (g x)) n.
Proof. destruct n as [d|d|d|d|cs|name ns attrs cs tc]; try reflexivity; cbn [inside]; rewrite flat_flat; [reflexivity|]. destruct tc; [rewrite flat_flat|]; reflexivity. Qed.
Lemma inside_ext f g n : (forall x, f x = g x) -> inside f n = inside g n.
Proof. intros H. destruct n as [d|d|d|d|cs|name ns attrs cs tc]; try reflexivity; cbn [inside]; rewrite (flat_map_ext _ _ H); [reflexivity|]. destruct tc; [rewrite (flat_map_ext _ _ H)|]; reflexivity. Qed.
Lemma batch_one ts n : Forall local_t ts -> (match ts with [] => True | _ :: r => Forall (fun t => ~ hoists t) r end) -> apply_walk ts n = one_by_one ts n.
Proof.
  revert n. induction ts as [|t ts IH]; intros n L Hh; [reflexivity|]. inversion L; subst.
  change (one_by_one (t :: ts) n) with (match apply_walk [t] n with Some n' => one_by_one ts n' | None => None end).
  rewrite (apply_walk_local [t] n); [|discriminate|constructor; [assumption|constructor]]. rewrite <- IH; [|assumption|destruct ts; [exact Logic.I|inversion Hh; assumption]].
  destruct ts as [|t2 ts]; [rewrite (apply_walk_local [t] n); [reflexivity|discriminate|exact L]|].
  rewrite (apply_walk_local (t :: t2 :: ts) n); [|discriminate|exact L]. rewrite (apply_walk_local (t2 :: ts)); [|discriminate|assumption]. rewrite inside_flat. f_equal. apply inside_ext. intros x.
  apply fuse; try assumption. lia.
Qed.

(* ---------- texts ---------- *)
(* transforms that remove no text *)
Lemma texts_moved n : is_element n = true -> flat_map texts_f (moved_nodes n) = texts_f n.
Proof. destruct n; try discriminate. intros _. cbn [moved_nodes texts_f]. rewrite flat_map_app. destruct template_content; reflexivity. Qed.
Lemma texts_with a n : texts_f (with_attrs a n) = texts_f n. Proof. destruct n; reflexivity. Qed.
Lemma texts_edit fs : forall n, texts_f (edit_attrs fs n) = texts_f n.
Proof. unfold edit_attrs. induction fs as [|f fs IH]; intros n; [reflexivity|]. cbn [fold_left]. rewrite IH. destruct (f n); [apply texts_with|reflexivity]. Qed.
Definition out_texts (o : outcome) : list str := match o with Kept n => texts_f n | Gone l => flat_map texts_f (map snd l) end.
Lemma run_texts ts : Forall keeps_text ts -> forall idx p s l r n, out_texts (run_ts idx ts p s l r n) = texts_f n.
Proof.
  induction 1 as [|t ts Kt Kts IH]; intros idx p s l r n; [reflexivity|]. cbn [run_ts]. destruct t as [sel patch|sel|sel|sel|sel fs|sel fs| | |sk tr bl]; cbn [keeps_text] in Kt; try (destruct Kt; fail).
  - destruct (is_element n && sel n); rewrite IH; [apply texts_with|reflexivity].
  - destruct (is_element n && sel n) eqn:E; [|apply IH]. cbn [out_texts]. rewrite map_snd_pair. apply texts_moved. apply andb_prop in E. tauto.
  - destruct sel as [sel|]; [|destruct Kt]. destruct (is_element n && sel n) eqn:E; [|apply IH].
    assert (A : first_action fs n = AKeep \/ first_action fs n = AUnwrap).
    { clear -Kt. induction fs as [|f fs IHf]; [left; reflexivity|]. cbn [first_action]. destruct (Kt f n (or_introl eq_refl)) as [->| ->]; [apply IHf; intros g m I; apply Kt; right; exact I|right; reflexivity]. }
    destruct A as [->| ->]; [apply IH|]. cbn [out_texts]. rewrite map_snd_pair. apply texts_moved. apply andb_prop in E. tauto.
  - destruct (is_element n && _); rewrite IH; [apply texts_edit|reflexivity].
  - destruct n; try apply IH; reflexivity.
  - destruct n; try apply IH; reflexivity.
Qed.
Lemma walk_texts ts fuel : Forall keeps_text ts -> forall p s left todo out, walk fuel ts p s left todo = Some out ->
  flat_map texts_f out = flat_map texts_f (rev left) ++ flat_map texts_f (map snd todo).
Proof.
  intros K. induction fuel as [|fuel IH]; intros p s left todo out H.
  - destruct todo as [|[m n] rest]; [|discriminate H]. injection H as <-. rewrite app_nil_r. reflexivity.
  - destruct todo as [|[m n] rest]; [injection H as <-; rewrite app_nil_r; reflexivity|]. cbn [walk] in H. cbn [map snd flat_map].
    pose proof (run_texts _ (Forall_skipn _ m ts K) m p s left (map snd rest) n) as R. destruct (run_ts m (skipn m ts) p s left (map snd rest) n) as [n'|g]; cbn [out_texts] in R.
    + assert (Q : forall n'', texts_f n'' = texts_f n' -> walk fuel ts p s (n'' :: left) rest = Some out -> flat_map texts_f out = flat_map texts_f (rev left) ++ texts_f n ++ flat_map texts_f (map snd rest)).
      { intros n'' E W. rewrite (IH _ _ _ _ _ W). cbn [rev]. rewrite flat_map_app. cbn [flat_map]. rewrite app_nil_r, E, R, <- app_assoc. reflexivity. }
      destruct n' as [d|d|d|d|cs|name ns attrs cs tc]; try (apply (Q _ eq_refl H)).
      * destruct (walk fuel ts None s [] (map (pair O) cs)) as [cs'|] eqn:E; [|discriminate H]. apply (Q (NDocument cs')); [|exact H]. cbn [texts_f]. rewrite (IH _ _ _ _ _ E). cbn [rev flat_map app]. rewrite map_snd_pair. reflexivity.
      * cbv zeta in H. destruct (walk fuel ts (Some name) _ [] (map (pair O) cs)) as [cs'|] eqn:E; [|discriminate H]. apply IH in E. rewrite map_snd_pair in E. cbn [rev flat_map app] in E. destruct tc as [l|].
        -- destruct (walk fuel ts None _ [] (map (pair O) l)) as [l'|] eqn:E2; [|discriminate H]. apply IH in E2. rewrite map_snd_pair in E2. cbn [rev flat_map app] in E2.
           apply (Q (NElem name ns attrs cs' (Some l'))); [|exact H]. cbn [texts_f]. rewrite E, E2. reflexivity.
        -- apply (Q (NElem name ns attrs cs' None)); [|exact H]. cbn [texts_f]. rewrite E. reflexivity.
    + rewrite (IH _ _ _ _ _ H). rewrite map_app, flat_map_app, R. reflexivity.
Qed.
Lemma apply_texts ts n n' : Forall keeps_text ts -> apply_walk ts n = Some n' -> texts_f n' = texts_f n.
Proof.
  intros K H. unfold apply_walk in H. destruct ts as [|t ts]; [injection H as <-; reflexivity|]. destruct n as [d|d|d|d|cs|name ns attrs cs tc]; try (injection H as <-; reflexivity).
  - destruct (walk _ (t :: ts) None false [] (map (pair O) cs)) as [cs'|] eqn:E; [|discriminate H]. injection H as <-. apply (walk_texts _ _ K) in E. rewrite map_snd_pair in E. exact E.
  - destruct (walk _ (t :: ts) (Some name) false [] (map (pair O) cs)) as [cs'|] eqn:E; [|discriminate H]. apply (walk_texts _ _ K) in E. rewrite map_snd_pair in E. cbn [rev flat_map app] in E. destruct tc as [l|].
    + destruct (walk _ (t :: ts) None false [] (map (pair O) l)) as [l'|] eqn:E2; [|discriminate H]. injection H as <-. apply (walk_texts _ _ K) in E2. rewrite map_snd_pair in E2. cbn [rev flat_map app] in E2. cbn [texts_f]. rewrite E, E2. reflexivity.
    + injection H as <-. cbn [texts_f]. rewrite E. reflexivity.
Qed.

(* ---------- the single transforms ---------- *)
Lemma flat_single {A} (f : A -> list A) (g : A -> A) l : Forall (fun x => f x = [g x]) l -> flat_map f l = map g l.
Proof. induction 1 as [|x l E F IH]; [reflexivity|]. cbn [flat_map map]. rewrite E, IH. reflexivity. Qed.
Ltac solve_kids IH IHt := repeat match goal with
  | |- context [flat_map ?f ?l] => match goal with H : Forall _ l |- _ => rewrite (flat_ext_F _ _ _ H) end
  end.
Definition elem_and (sel : node -> bool) (n : node) : bool := is_element n && sel n.
Lemma drop_spec sel n : bpass [TDrop sel] O n = without (elem_and sel) n.
Proof.
  induction n as [d|d|d|d|cs IH|name ns attrs cs tc IH IHt] using node_ind'; try reflexivity.
  - cbn [bpass skipn hrun is_element andb without elem_and]. rewrite (flat_ext_F _ _ _ IH). reflexivity.
  - cbn [bpass skipn hrun without]. unfold elem_and at 1. cbn [is_element andb]. destruct (sel (NElem name ns attrs cs tc)); [reflexivity|]. cbn [node_attrs]. rewrite (flat_ext_F _ _ _ IH).
    destruct tc as [l|]; [rewrite (flat_ext_F _ _ _ (IHt l eq_refl))|]; reflexivity.
Qed.
Lemma drop_comments_spec n : bpass [TDropComments] O n = without (fun n => match n with NComment _ | NPI _ => true | _ => false end) n.
Proof.
  induction n as [d|d|d|d|cs IH|name ns attrs cs tc IH IHt] using node_ind'; try reflexivity; cbn [bpass skipn hrun without node_attrs]; rewrite (flat_ext_F _ _ _ IH); [reflexivity|].
  destruct tc as [l|]; [rewrite (flat_ext_F _ _ _ (IHt l eq_refl))|]; reflexivity.
Qed.
Lemma drop_doctype_spec n : bpass [TDropDoctype] O n = without (fun n => match n with NDoctype _ => true | _ => false end) n.
Proof.
  induction n as [d|d|d|d|cs IH|name ns attrs cs tc IH IHt] using node_ind'; try reflexivity; cbn [bpass skipn hrun without node_attrs]; rewrite (flat_ext_F _ _ _ IH); [reflexivity|].
  destruct tc as [l|]; [rewrite (flat_ext_F _ _ _ (IHt l eq_refl))|]; reflexivity.
Qed.
Lemma empty_spec sel n : bpass [TEmpty sel] O n = [emptied (elem_and sel) n].
Proof.
  induction n as [d|d|d|d|cs IH|name ns attrs cs tc IH IHt] using node_ind'; try reflexivity.
  - cbn [bpass skipn hrun is_element andb emptied elem_and]. rewrite (flat_single _ _ _ IH). reflexivity.
  - cbn [bpass skipn hrun emptied]. unfold elem_and at 1 3. cbn [is_element andb]. destruct (sel (NElem name ns attrs cs tc)); cbn [node_attrs]; [reflexivity|]. rewrite (flat_single _ _ _ IH).
    destruct tc as [l|]; [rewrite (flat_single _ _ _ (IHt l eq_refl))|]; reflexivity.
Qed.
Lemma set_spec sel patch n : bpass [TSetAttrs sel patch] O n = [relabelled (fun n => if sel n then set_attrs (node_attrs n) patch else node_attrs n) n].
Proof.
  induction n as [d|d|d|d|cs IH|name ns attrs cs tc IH IHt] using node_ind'; try reflexivity.
  - cbn [bpass skipn hrun is_element andb relabelled]. rewrite (flat_single _ _ _ IH). reflexivity.
  - cbn [bpass skipn hrun is_element andb relabelled]. destruct (sel (NElem name ns attrs cs tc)); cbn [node_attrs with_attrs]; rewrite (flat_single _ _ _ IH);
    destruct tc as [l|]; try rewrite (flat_single _ _ _ (IHt l eq_refl)); reflexivity.
Qed.
Lemma edit_spec sel f n : bpass [TEditAttrs sel [f]] O n =
  [relabelled (fun n => if match sel with None => true | Some s => s n end then match f n with Some a => a | None => node_attrs n end else node_attrs n) n].
Proof.
  induction n as [d|d|d|d|cs IH|name ns attrs cs tc IH IHt] using node_ind'; try reflexivity.
  - cbn [bpass skipn hrun is_element andb relabelled]. rewrite (flat_single _ _ _ IH). reflexivity.
  - cbn [bpass skipn hrun is_element andb relabelled edit_attrs fold_left].
    destruct (match sel with None => true | Some s => s (NElem name ns attrs cs tc) end);
    [unfold edit_attrs; cbn [fold_left]; destruct (f (NElem name ns attrs cs tc)) as [a|]|]; cbn [node_attrs with_attrs]; rewrite (flat_single _ _ _ IH);
    destruct tc as [l|]; try rewrite (flat_single _ _ _ (IHt l eq_refl)); reflexivity.
Qed.
Lemma unwrap_spec sel n : bpass [TUnwrap sel] O n = half_unwrapped sel false n /\ bpass [TUnwrap sel] 1 n = half_unwrapped sel true n.
Proof.
  induction n as [d|d|d|d|cs IH|name ns attrs cs tc IH IHt] using node_ind'; try (split; reflexivity).
  - assert (A : flat_map (bpass [TUnwrap sel] O) cs = flat_map (half_unwrapped sel false) cs) by (apply flat_ext_F; eapply Forall_impl; [|exact IH]; intros a H; apply H).
    split; cbn [bpass skipn hrun is_element andb half_unwrapped]; rewrite A; reflexivity.
  - assert (A : forall l, Forall (fun n => bpass [TUnwrap sel] 0 n = half_unwrapped sel false n /\ bpass [TUnwrap sel] 1 n = half_unwrapped sel true n) l ->
      flat_map (bpass [TUnwrap sel] O) l = flat_map (half_unwrapped sel false) l /\ flat_map (bpass [TUnwrap sel] 1) l = flat_map (half_unwrapped sel true) l).
    { intros l F. split; apply flat_ext_F; (eapply Forall_impl; [|exact F]); intros a H; apply H. }
    destruct (A cs IH) as [A1 A2]. cbn [bpass skipn hrun is_element andb half_unwrapped negb]. rewrite A1. destruct tc as [l|].
    + destruct (A l (IHt l eq_refl)) as [B1 B2]. rewrite B1. destruct (sel (NElem name ns attrs cs (Some l))); cbn [hoist_if]; rewrite ?A2, ?B2; split; reflexivity.
    + destruct (sel (NElem name ns attrs cs None)); cbn [hoist_if]; rewrite ?A2; split; reflexivity.
Qed.
Definition unwraps (f : node -> action) (n : node) : bool := match f n with AUnwrap => true | _ => false end.
Lemma decide_unwrap_spec sel (p : node -> bool) n :
  bpass [TDecide (Some sel) [fun n => if p n then AUnwrap else AKeep]] O n = unwrapped (fun n => elem_and sel n && p n) n.
Proof.
  induction n as [d|d|d|d|cs IH|name ns attrs cs tc IH IHt] using node_ind'; try reflexivity.
  - cbn [bpass skipn hrun is_element andb unwrapped elem_and]. rewrite (flat_ext_F _ _ _ IH). reflexivity.
  - cbn [bpass skipn hrun unwrapped first_action]. unfold elem_and at 1. cbn [is_element andb]. destruct (sel _); cbn [andb]; [destruct (p _)|]; cbn [hoist_if node_attrs]; rewrite (flat_ext_F _ _ _ IH);
    destruct tc as [l|]; try rewrite (flat_ext_F _ _ _ (IHt l eq_refl)); reflexivity.
Qed.
(* the bulk path of Drop *)
Lemma bulk_lists tags l : Forall (fun n => without (fun n => match drop_if_tag tags n with ADrop => true | _ => false end) n =
    if (match drop_if_tag tags n with ADrop => true | _ => false end) then [] else [bulk_drop tags n]) l ->
  flat_map (without (fun n => match drop_if_tag tags n with ADrop => true | _ => false end)) l =
  filter (fun c => match drop_if_tag tags c with ADrop => false | _ => true end) (map (bulk_drop tags) l).
Proof.
  induction 1 as [|n l E F IH]; [reflexivity|]. cbn [flat_map map filter]. rewrite E, IH.
  replace (drop_if_tag tags (bulk_drop tags n)) with (drop_if_tag tags n) by (destruct n; reflexivity). destruct (drop_if_tag tags n); reflexivity.
Qed.
Lemma bulk_spec tags n : without (fun n => match drop_if_tag tags n with ADrop => true | _ => false end) n =
  if (match drop_if_tag tags n with ADrop => true | _ => false end) then [] else [bulk_drop tags n].
Proof.
  induction n as [d|d|d|d|cs IH|name ns attrs cs tc IH IHt] using node_ind'; try reflexivity.
  - cbn [without drop_if_tag bulk_drop]. rewrite (bulk_lists tags cs IH). reflexivity.
  - cbn [without drop_if_tag bulk_drop]. destruct (in_strs (lower name) tags); [reflexivity|]. rewrite (bulk_lists tags cs IH). destruct tc as [l|]; [rewrite (bulk_lists tags l (IHt l eq_refl))|]; reflexivity.
Qed.
Lemma decide_drop_spec (p : node -> bool) n : bpass [TDecide None [fun n => if p n then ADrop else AKeep]] O n = without p n.
Proof.
  induction n as [d|d|d|d|cs IH|name ns attrs cs tc IH IHt] using node_ind'; cbn [bpass skipn hrun without first_action].
  - destruct (p (NText d)); reflexivity.
  - destruct (p (NComment d)); reflexivity.
  - destruct (p (NPI d)); reflexivity.
  - destruct (p (NDoctype d)); reflexivity.
  - destruct (p (NDocument cs)); cbn [node_attrs]; [reflexivity|]. rewrite (flat_ext_F _ _ _ IH). reflexivity.
  - destruct (p (NElem name ns attrs cs tc)); cbn [node_attrs]; [reflexivity|]. rewrite (flat_ext_F _ _ _ IH). destruct tc as [l|]; [rewrite (flat_ext_F _ _ _ (IHt l eq_refl))|]; reflexivity.
Qed.
(* callbacks that agree everywhere give the same walk *)
Lemma hrun_decide_ext f g m n : (forall x, f x = g x) -> hrun m (skipn m [TDecide None [f]]) n false = hrun m (skipn m [TDecide None [g]]) n false.
Proof. intros E. destruct m as [|[|m]]; [|reflexivity|reflexivity]. cbn [skipn hrun first_action]. rewrite E. reflexivity. Qed.
Lemma decide_ext f g n : (forall x, f x = g x) -> forall m, bpass [TDecide None [f]] m n = bpass [TDecide None [g]] m n.
Proof.
  intros E. induction n as [d|d|d|d|cs IH|name ns attrs cs tc IH IHt] using node_ind'; intros m; cbn [bpass]; rewrite (hrun_decide_ext f g m _ E); try reflexivity.
  - destruct (hrun m (skipn m [TDecide None [g]]) _ false) as [|k|a cl]; try reflexivity; [|destruct cl; [reflexivity|f_equal; f_equal]]; apply flat_ext_F; (eapply Forall_impl; [|exact IH]); intros x H; apply H.
  - assert (A : forall k l, Forall (fun n => forall m, bpass [TDecide None [f]] m n = bpass [TDecide None [g]] m n) l -> flat_map (bpass [TDecide None [f]] k) l = flat_map (bpass [TDecide None [g]] k) l)
      by (intros k l F; apply flat_ext_F; (eapply Forall_impl; [|exact F]); intros x H; apply H).
    destruct (hrun m (skipn m [TDecide None [g]]) _ false) as [|k|a cl]; try reflexivity.
    + rewrite (A k cs IH). destruct tc as [l|]; [rewrite (A k l (IHt l eq_refl))|]; reflexivity.
    + destruct cl; [reflexivity|]. rewrite (A O cs IH). destruct tc as [l|]; [rewrite (A O l (IHt l eq_refl))|]; reflexivity.
Qed.

(* ---------- attributes ---------- *)
Lemma get_put k k' v l : attr_get k (attr_put k' v l) = if str_eqb k k' then Some v else attr_get k l.
Proof.
  induction l as [|[k0 v0] l IH]; [reflexivity|]. cbn [attr_put]. destruct (str_eqb k' k0) eqn:E0.
  - cbn [attr_get]. apply str_eqb_eq in E0. subst k0. destruct (str_eqb k k'); reflexivity.
  - cbn [attr_get]. rewrite IH. destruct (str_eqb k k0) eqn:E1; [|reflexivity]. apply str_eqb_eq in E1. subst k0. destruct (str_eqb k k') eqn:E2; [|reflexivity]. apply str_eqb_eq in E2. subst k'. rewrite str_eqb_refl in E0. discriminate E0.
Qed.
Definition value_of (o : option (option str)) : option str := match o with Some v => v | None => None end.
Lemma set_attr_get k l kv : value_of (attr_get k (set_attr l kv)) = if str_eqb k (fst kv) then snd kv else value_of (attr_get k l).
Proof.
  destruct kv as [k' v]. cbn [set_attr fst snd]. fold (value_of (attr_get k' l)). destruct (opt_str_eqb (value_of (attr_get k' l)) v) eqn:E.
  - destruct (str_eqb k k') eqn:E2; [|reflexivity]. apply str_eqb_eq in E2. subst k'. destruct (value_of (attr_get k l)), v; try discriminate E; [apply str_eqb_eq in E; congruence|reflexivity].
  - rewrite get_put. destruct (str_eqb k k'); reflexivity.
Qed.
Lemma set_attr_has k l kv : attr_get k l <> None -> attr_get k (set_attr l kv) <> None.
Proof. destruct kv as [k' v]. cbn [set_attr]. destruct (opt_str_eqb _ v); [tauto|]. rewrite get_put. destruct (str_eqb k k'); [discriminate|tauto]. Qed.
Lemma set_attr_other k l kv : str_eqb k (fst kv) = false -> attr_get k (set_attr l kv) = attr_get k l.
Proof. destruct kv as [k' v]. cbn [set_attr fst]. intros E. destruct (opt_str_eqb _ v); [reflexivity|]. rewrite get_put, E. reflexivity. Qed.
Lemma set_attrs_other k patch : forall l, ~ In k (map fst patch) -> attr_get k (set_attrs l patch) = attr_get k l.
Proof.
  unfold set_attrs. induction patch as [|kv patch IH]; intros l H; [reflexivity|]. cbn [fold_left]. rewrite IH by (intros I; apply H; right; exact I). apply set_attr_other.
  destruct (str_eqb k (fst kv)) eqn:E; [|reflexivity]. apply str_eqb_eq in E. destruct H. left. congruence.
Qed.
Lemma set_attrs_get k v patch : NoDup (map fst patch) -> In (k, v) patch -> forall l, value_of (attr_get k (set_attrs l patch)) = v.
Proof.
  unfold set_attrs. induction patch as [|kv patch IH]; intros ND I l; [destruct I|]. cbn [map] in ND. inversion ND; subst. cbn [fold_left]. destruct I as [->|I].
  - fold (set_attrs (set_attr l (k, v)) patch). rewrite set_attrs_other by assumption. rewrite set_attr_get. cbn [fst snd]. rewrite str_eqb_refl. reflexivity.
  - apply IH; assumption.
Qed.
