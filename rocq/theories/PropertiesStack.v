(* C38: whatever was pushed, popped, inserted, replaced, removed and sliced, every lookup on the indexed stack of open elements answers as a scan of the plain list does *)
From Coq Require Import ZArith Lia ZifyBool ZifyN ZifyNat.
From Verif Require Import Str StrFacts StackModel StackSpec StackProofs StackOps StackLookup.
Open Scope N_scope.

(* the code, run on a history of operations *)
Fixpoint run (ops : list op) (s : stack) : option stack := match ops with [] => Some s | o :: t => match apply_op o s with Some s' => run t s' | None => None end end.
Definition history (init : list item) (ops : list op) : option stack := match new_stack init with Some s => run ops s | None => None end.

Lemma run_ok ops : forall s, good s -> fresh_ops ops (items s) ->
  match plain_run ops (items s) with Some l => exists s', run ops s = Some s' /\ items s' = l /\ good s' | None => run ops s = None end.
Proof.
  induction ops as [|o ops IH]; intros s G F; cbn [plain_run run].
  - exists s. split; [reflexivity|]. split; [reflexivity|exact G].
  - destruct F as [F1 F2]. pose proof (apply_ok o s G F1) as H. destruct (plain o (items s)) as [l1|]; [|rewrite H; reflexivity]. destruct H as (s1 & -> & <- & G1). apply IH; [exact G1|]. apply F2. reflexivity.
Qed.
Lemma history_ok init ops : distinct init -> fresh_ops ops init -> match plain_run ops init with Some l => exists s, history init ops = Some s /\ items s = l /\ good s | None => history init ops = None end.
Proof.
  intros D F. unfold history. destruct (new_stack_ok init D) as (s0 & -> & E & G). rewrite <- E in F |- *. exact (run_ok ops s0 G F).
Qed.
Lemma history_good init ops s l : distinct init -> fresh_ops ops init -> history init ops = Some s -> plain_run ops init = Some l -> items s = l /\ good s.
Proof. intros D F H P. pose proof (history_ok init ops D F) as K. rewrite P, H in K. destruct K as (s' & E & I & G). assert (s' = s) as -> by congruence. split; assumption. Qed.

(* the stack holds the list the same operations make, and raises exactly where a list raises (it has no inner failure of its own: no KeyError or IndexError of an index) *)
Theorem C38_same_list : forall init ops, distinct init -> fresh_ops ops init -> option_map items (history init ops) = plain_run ops init.
Proof. intros init ops D F. pose proof (history_ok init ops D F) as K. destruct (plain_run ops init) as [l|]; [destruct K as (s & -> & <- & _)|rewrite K]; reflexivity. Qed.

Section After.
Variables (init : list item) (ops : list op) (s : stack) (l : list item).
Hypothesis distinct_init : distinct init.
Hypothesis fresh : fresh_ops ops init.
Hypothesis ran : history init ops = Some s.
Hypothesis list_is : plain_run ops init = Some l.

Theorem C38_last_index_of : forall name, topmost (fun it => i_name it = name) l (last_index_of name s).
Proof. intros name. destruct (history_good _ _ _ _ distinct_init fresh ran list_is) as [<- G]. apply last_index_of_ok. exact G. Qed.
Theorem C38_last_index_of_any : forall names, topmost (fun it => In (i_name it) names) l (last_index_of_any names s).
Proof. intros name. destruct (history_good _ _ _ _ distinct_init fresh ran list_is) as [<- G]. apply last_index_of_any_ok. exact G. Qed.
(* parser_only: parser-only marker elements count too *)
Theorem C38_last_html_index_of : forall name parser_only, topmost (fun it => i_name it = name /\ (html_element it \/ (parser_only = true /\ marker it))) l (last_html_index_of name parser_only s).
Proof. intros name po. destruct (history_good _ _ _ _ distinct_init fresh ran list_is) as [<- G]. apply last_html_index_of_ok. exact G. Qed.
Theorem C38_last_html_index : exists r, last_html_index s = Some (or_minus1 r) /\ topmost html_element l r.
Proof. destruct (history_good _ _ _ _ distinct_init fresh ran list_is) as [<- G]. apply last_html_index_ok. exact G. Qed.
Theorem C38_last_rendered_index : topmost (fun it => ~ marker it) l (last_rendered_index s).
Proof. destruct (history_good _ _ _ _ distinct_init fresh ran list_is) as [<- G]. apply last_rendered_index_ok. exact G. Qed.
(* for the next four, the bottom of the stack is not itself an answer: it is the document or fragment root in the parser *)
Theorem C38_last_html_index_of_any : forall names, not_bottom (html_named_in names) l -> exists r, last_html_index_of_any names s = Some (or_minus1 r) /\ topmost (html_named_in names) l r.
Proof. intros names. destruct (history_good _ _ _ _ distinct_init fresh ran list_is) as [<- G]. apply (last_html_index_of_any_ok s G names). Qed.
Theorem C38_last_foreign_boundary_index : not_bottom integration_point l -> exists r, last_foreign_boundary_index s = or_minus1 r /\ topmost integration_point l r.
Proof. destruct (history_good _ _ _ _ distinct_init fresh ran list_is) as [<- G]. apply (last_foreign_boundary_index_ok s G). Qed.
Theorem C38_last_scope_boundary_index : forall names, not_bottom (boundary names) l -> exists r, last_scope_boundary_index names s = Some (or_minus1 r) /\ topmost (boundary names) l r.
Proof. intros names. destruct (history_good _ _ _ _ distinct_init fresh ran list_is) as [<- G]. apply (last_scope_boundary_index_ok s G names). Qed.
Theorem C38_last_template_boundary_index : not_bottom template l -> exists r, last_template_boundary_index s = or_minus1 r /\ topmost template l r.
Proof. destruct (history_good _ _ _ _ distinct_init fresh ran list_is) as [<- G]. apply (last_template_boundary_index_ok s G). Qed.
Theorem C38_contains : forall it, contains_node it s = true <-> exists y, In y l /\ i_id y = i_id it.
Proof. intros it. destruct (history_good _ _ _ _ distinct_init fresh ran list_is) as [<- G]. apply contains_node_ok. exact G. Qed.
Theorem C38_index_of_node : forall it, match index_of_node it s with Some i => exists y, nth_error l i = Some y /\ i_id y = i_id it | None => forall y, In y l -> i_id y <> i_id it end.
Proof. intros it. destruct (history_good _ _ _ _ distinct_init fresh ran list_is) as [<- G]. apply index_of_node_ok. exact G. Qed.
Theorem C38_count_of : forall name, count_of name s = Z.of_nat (List.length (filter (fun it => str_eqb (i_name it) name) l)).
Proof. intros name. destruct (history_good _ _ _ _ distinct_init fresh ran list_is) as [<- G]. apply count_of_ok. exact G. Qed.
End After.

(* topmost determines the answer *)
Lemma C38_topmost_unique P l r1 r2 : topmost P l r1 -> topmost P l r2 -> r1 = r2.
Proof.
  destruct r1 as [i|], r2 as [j|]; cbn [topmost]; [|intros (A & (x & X1 & X2) & _) B; destruct (B i x A X1 X2)|intros B (A & (x & X1 & X2) & _); destruct (B j x A X1 X2)|reflexivity].
  intros (_ & (x & X1 & X2) & T1) (_ & (y & Y1 & Y2) & T2). f_equal. destruct (Nat.lt_trichotomy i j) as [L|[L|L]]; [destruct (T1 j y L Y1 Y2)|exact L|destruct (T2 i x L X1 X2)].
Qed.

(* ---------- a history that crosses the index threshold and comes back, with foreign elements, markers, a template and an insertion in the middle ---------- *)
Definition el (i : N) (name : string) : item := Item i (u name) (Some (u "html")) [] false.
Definition svg (i : N) (name : string) : item := Item i (u name) (Some (u "svg")) [] false.
Definition tmpl (i : N) : item := Item i (u "template") (Some (u "html")) [] true.
Definition mark (i : N) (name : string) : item := Item i (u name) (Some (u "justhtml-parser-only")) [] false.
Definition root : item := Item 0 (u "#document") None [] false.
Definition divs (a : N) (n : nat) : list op := map (fun k => Append (el (a + N.of_nat k) "div")) (seq 0 n).
Definition demo : list op := ([Append (el 1 "html"); Append (el 2 "body"); Append (svg 3 "svg"); Append (svg 4 "foreignObject")] ++ divs 10 29 ++
  [Append (el 50 "p"); Insert 2 (el 51 "table"); Append (tmpl 52); Append (mark 53 "select"); SetItem (-3) (el 54 "p"); Remove (el 12 "div"); Pop (-1); DelSlice (Some 20%Z) (Some 25%Z) 2; DelItem 7])%list.
Definition fresh_b (o : op) (l : list item) : bool :=
  match o with
  | Append it | Insert _ it => forallb (fun y => negb (i_id y =? i_id it)) l
  | SetItem z it => match py_index z (List.length l) with Some k => forallb (fun y => negb (i_id y =? i_id it)) (firstn k l ++ skipn (S k) l) | None => true end
  | DelSlice _ _ step => negb (step =? 0)%nat
  | Remove it => forallb (fun y => negb (i_id y =? i_id it) || (str_eqb (i_name y) (i_name it) && match i_ns y, i_ns it with Some a, Some b => str_eqb a b | _, _ => false end && match i_attrs y, i_attrs it with [], [] => true | _, _ => false end && Bool.eqb (i_template y) (i_template it))) l
  | _ => true
  end.
Fixpoint fresh_all (ops : list op) (l : list item) : bool := match ops with [] => true | o :: t => fresh_b o l && match plain o l with Some l' => fresh_all t l' | None => true end end.
Lemma fresh_b_ok o l : fresh_b o l = true -> fresh_op o l.
Proof.
  destruct o as [it|z it|z it|z|it|z|a b n]; cbn [fresh_b fresh_op].
  - intros H y I Q. rewrite forallb_forall in H. specialize (H y I). rewrite Q, N.eqb_refl in H. discriminate H.
  - intros H y I Q. rewrite forallb_forall in H. specialize (H y I). rewrite Q, N.eqb_refl in H. discriminate H.
  - intros H k E. rewrite E in H. intros y I Q. rewrite forallb_forall in H. specialize (H y I). rewrite Q, N.eqb_refl in H. discriminate H.
  - auto.
  - intros H y I Q. rewrite forallb_forall in H. specialize (H y I). rewrite Q, N.eqb_refl in H. cbn [negb orb] in H. rewrite !andb_true_iff in H. destruct H as [[[A B] C] D]. destruct y as [i1 n1 s1 a1 t1], it as [i2 n2 s2 a2 t2]. cbn [i_id i_name i_ns i_attrs i_template] in *.
    apply str_eqb_eq in A. destruct s1 as [s1|], s2 as [s2|]; try discriminate B. apply str_eqb_eq in B. destruct a1, a2; try discriminate C. apply Bool.eqb_prop in D. congruence.
  - auto.
  - intros H E. rewrite E in H. discriminate H.
Qed.
Lemma fresh_all_ok ops : forall l, fresh_all ops l = true -> fresh_ops ops l.
Proof. induction ops as [|o ops IH]; intros l H; cbn [fresh_all fresh_ops] in *; [exact Logic.I|]. apply andb_true_iff in H as [A B]. split; [apply fresh_b_ok; exact A|]. intros l' E. rewrite E in B. exact (IH l' B). Qed.
Example C38_demo_fresh : fresh_ops demo [root] /\ distinct [root].
Proof. split; [apply fresh_all_ok; vm_compute; reflexivity|]. repeat constructor. intros []. Qed.
(* the index is on at the end; the answers are the expected ones *)
Example C38_demo : match history [root] demo with
  | Some s => (if ix s then true else false, List.length (items s), last_index_of (u "div") s, last_html_index_of_any [u "table"; u "p"] s, last_foreign_boundary_index s, last_template_boundary_index s, count_of (u "div") s, index_of_node (tmpl 52) s)
  | None => (false, O, None, None, 0%Z, 0%Z, 0%Z, None)
  end = (true, 32, Some 29, Some 30%Z, 5%Z, 31%Z, 24%Z, Some 31)%nat.
Proof. vm_compute. reflexivity. Qed.
(* why the bottom has to be excluded above: a stack whose bottom is an html element named p gives 0 with the index and -1 without *)
Example C38_bottom : option_map (fun s => last_html_index_of_any [u "p"] s) (history [el 1 "p"] []) = Some (Some (-1)%Z)
  /\ option_map (fun s => last_html_index_of_any [u "p"] s) (history [el 1 "p"] (divs 10 31)) = Some (Some 0%Z).
Proof. vm_compute. split; reflexivity. Qed.

Print Assumptions C38_same_list.
Print Assumptions C38_last_index_of.
Print Assumptions C38_last_index_of_any.
Print Assumptions C38_last_html_index_of.
Print Assumptions C38_last_html_index.
Print Assumptions C38_last_rendered_index.
Print Assumptions C38_last_html_index_of_any.
Print Assumptions C38_last_foreign_boundary_index.
Print Assumptions C38_last_scope_boundary_index.
Print Assumptions C38_last_template_boundary_index.
Print Assumptions C38_contains.
Print Assumptions C38_index_of_node.
Print Assumptions C38_count_of.
