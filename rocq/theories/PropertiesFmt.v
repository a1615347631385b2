(* C53: the list of active formatting elements, lazily compacted and indexed, is the list of the standard; Noah's Ark holds *)
From Coq Require Import ZArith Lia ZifyBool ZifyN ZifyNat.
From Verif Require Import Str StrFacts FmtModel FmtSpec FmtProofs FmtList FmtOps FmtFinal.
Open Scope N_scope.

(* the states after any history of operations *)
Inductive reach : fmt -> Prop :=
| reach_empty : reach empty
| reach_step f o f' : reach f -> ok_op o f -> apply_op o f = Some f' -> reach f'.
Lemma reach_inv f : reach f -> inv f.
Proof. induction 1 as [|f o f' R I Ok E]; [apply empty_inv|]. destruct (op_ok o f I Ok) as (f'' & E' & I' & _). assert (f'' = f') as -> by congruence. exact I'. Qed.

(* no operation fails, and what is live afterwards is what the standard says *)
Theorem C53_step : forall f o, reach f -> ok_op o f -> exists f', apply_op o f = Some f' /\ step (e_next f) o (view (active f)) (view (active f')).
Proof. intros f o R Ok. destruct (op_ok o f (reach_inv f R) Ok) as (f' & E & _ & S0). exists f'. split; assumption. Qed.
(* at most three elements with the same name and attributes after the last marker *)
Theorem C53_at_most_three : forall f s n a k, reach f -> after_marker (view (active f)) s -> count (noah_same n a) s k -> (k <= 3)%nat.
Proof. intros f s n a k R. apply three_ok. apply reach_inv. exact R. Qed.
(* the index finds a duplicate when a scan does, and the same one *)
Theorem C53_duplicate : forall f g s n a, reach f -> last_seg (segs f) = Some g -> after_marker (view (active f)) s ->
  match duplicate n a (materialize g) with
  | Some e => count (noah_same n a) s 3 /\ exists s1 s2, s = s1 ++ AElem (e_id e) (e_name e) (signature e) :: s2 /\ noah_same n a (AElem (e_id e) (e_name e) (signature e)) /\ forall y, In y s1 -> ~ noah_same n a y
  | None => exists k, count (noah_same n a) s k /\ (k < 3)%nat
  end.
Proof.
  intros f g s n a R LS AM. apply reach_inv in R. destruct (lay_last _ _ (i_lay f R)) as [[_ E]|(pre & es & sg0 & g' & E & ES & C & CL & _)]; [rewrite E in LS; discriminate LS|]. rewrite ES, last_seg_app in LS. assert (g' = g) as -> by congruence.
  rewrite E in AM. assert (s = map it (live es)) as -> by (apply (after_fun _ _ AM); apply after_closed; exact CL). destruct (materialize_ok g _ (proj2 C)) as (M1 & M2 & _). pose proof (sg_keys _ _ M1) as SK. rewrite M2 in SK.
  unfold duplicate. rewrite (kget_bucket _ _ (sg_kok _ _ M1)), (SK (n, a)). pose proof (count_same n a (live es)) as Cn. pose proof (sg_three _ _ M1 (n, a)) as T. destruct (same (n, a) (live es)) as [|d1 [|d2 [|d3 [|d4 t]]]] eqn:Es; cbn [List.length] in *; [ | | | |exfalso; lia]; [exists 0%nat|exists 1%nat|exists 2%nat|]; try (split; [exact Cn|lia]).
  split; [exact Cn|]. unfold same in Es. apply filter_first in Es as (x & y & Q & Pd & Fx & _). exists (map it x), (map it y). rewrite Q, map_app. split; [reflexivity|]. split; [apply (same_iff n a d1); exact Pd|]. intros z I. apply in_map_iff in I as (w & <- & I). rewrite <- same_iff. intros K. assert (J : In w (filter (fun e => key_eqb (n, a) (ekey e)) x)) by (apply filter_In; split; assumption). rewrite Fx in J. destruct J.
Qed.
(* the search by name finds the last one after the last marker, although it first asks the name table *)
Theorem C53_find : forall f n, reach f -> match find_index n f with
  | Some i => exists e, nth_error (active f) i = Some (Some e) /\ e_live e = true /\ last_named n (view (active f)) (Some (AElem (e_id e) n (signature e)))
  | None => last_named n (view (active f)) None
  end.
Proof. intros f n R. apply find_index_ok. apply reach_inv. exact R. Qed.
(* the number of dead slots is known exactly: compaction is not late *)
Theorem C53_retired : forall f, reach f -> retired f = Z.of_nat (List.length (filter (fun s => match s with Some e => negb (e_live e) | None => false end) (active f))).
Proof.
  intros f R. rewrite (i_dead f (reach_inv f R)). unfold dead. f_equal. f_equal. apply filter_ext. intros [e|]; reflexivity.
Qed.

(* ---------- a history ---------- *)
Fixpoint run (ops : list op) (f : fmt) : option fmt := match ops with [] => Some f | o :: t => match apply_op o f with Some f' => run t f' | None => None end end.
Definition b : op := Push (u "b") [(u "class", Some (u "x")); (u "id", None)] None false.
Definition b' : op := Push (u "b") [(u "id", None); (u "class", Some (u "x"))] (Some [(u "class", Some (u "x"))]) false.
Definition i : op := PushFast (u "i") [].
Definition demo : list op := [i; Prepare; b; Marker; Prepare; b; Prepare; b'; i; Prepare; b; Prepare; b'; RemoveLast (u "i"); Marker; i; Clear].
(* the four equal b after the first marker: the first of them (id 2) has gone; the b before the marker is not counted *)
Example C53_demo : option_map (fun f => map id_of (view (active f))) (run demo empty) = Some [Some 0; Some 1; None; Some 3; Some 5; Some 6]
  /\ option_map (fun f => find_index (u "b") f) (run demo empty) = Some (Some 7%nat)
  /\ option_map (fun f => find_index (u "i") f) (run demo empty) = Some None.
Proof. vm_compute. repeat split. Qed.
(* the history keeps to the rules *)
Fixpoint simple (ops : list op) (f : fmt) : bool :=
  match ops with
  | [] => true
  | o :: t => (match o with Push _ _ _ _ => match segs f with [] => false | _ => true end | Retire _ | Replace _ _ => false | _ => true end) && match apply_op o f with Some f' => simple t f' | None => false end
  end.
Lemma simple_reach ops : forall f, reach f -> simple ops f = true -> exists f', run ops f = Some f' /\ reach f'.
Proof.
  induction ops as [|o ops IH]; intros f R H; [exists f; split; [reflexivity|exact R]|]. cbn [simple] in H. apply andb_true_iff in H as [H1 H2]. cbn [run]. destruct (apply_op o f) as [f'|] eqn:E; [|discriminate H2]. apply IH; [|exact H2]. apply (reach_step f o f' R); [|exact E].
  destruct o; try exact Logic.I; cbn [ok_op]; try discriminate H1. destruct (segs f); [discriminate H1|discriminate].
Qed.
Example C53_demo_reach : exists f, run demo empty = Some f /\ reach f.
Proof. apply simple_reach; [constructor|]. vm_compute. reflexivity. Qed.
(* seventy equal elements: three stay live, and the dead slots are swept *)
Definition seventy : list op := List.concat (repeat [Prepare; b] 70).
Example C53_many : option_map (fun f => (List.length (view (active f)), retired f, List.length (active f))) (run seventy empty) = Some (3%nat, 3%Z, 6%nat).
Proof. vm_compute. reflexivity. Qed.
(* the adoption agency: b (id 0) with i (id 1) inside; the clone (id 2) of b is put at place 1 *)
Definition before : option fmt := run [Prepare; b; i] empty.
Example C53_replace_ok : exists f, before = Some f /\ reach f /\ ok_op (Replace 0 1) f.
Proof.
  destruct (simple_reach [Prepare; b; i] empty reach_empty) as (f & E & R); [vm_compute; reflexivity|]. exists f. split; [exact E|]. split; [exact R|]. vm_compute in E. injection E as <-.
  eexists [], _, _, _. split; [reflexivity|]. split; [reflexivity|]. split; [reflexivity|]. split; [intros [Q|[]]; discriminate Q|]. split; [vm_compute; reflexivity|]. cbn [active List.length]. split; [lia|]. intros s I. cbn [skipn In] in I. destruct I as [<-|[]]. eexists. split; [reflexivity|]. intros _ Q. discriminate Q.
Qed.

Print Assumptions C53_step.
Print Assumptions C53_at_most_three.
Print Assumptions C53_duplicate.
Print Assumptions C53_find.
Print Assumptions C53_retired.
