(* PROOFS for FramesetModel.v *)
From Coq Require Import List Arith NArith Bool String Lia.
From Verif Require Import Str StrFacts FramesetModel FramesetSpec SanTreeProofs SanFacts.
Import ListNotations.
Open Scope string_scope. Open Scope list_scope. Open Scope nat_scope.

Definition sum (l : list node) : nat := list_sum (map size l).
Lemma size_eq n : size n = S (sum (kids n)).
Proof.
  destruct n as [d|name ns at_ c]; [reflexivity|]. cbn [size kids]. f_equal. unfold sum. induction c as [|x t IH]; [reflexivity|]. cbn. f_equal. apply IH.
Qed.
Section Walk.
Variable way_of : node -> way.
Let push m := way_of m = Push.
Lemma scan_spec ch : forall pending,
  match scan way_of ch pending with
  | None => exists c, In c ch /\ way_of c = Stop
  | Some p => (forall c, In c ch -> way_of c <> Stop) /\ (forall x, In x p <-> In x pending \/ (In x ch /\ way_of x = Push)) /\ sum p <= sum pending + sum ch
  end.
Proof.
  induction ch as [|c t IH]; intros pending; cbn [scan].
  - split; [intros c []|]. split; [intros x; cbn; tauto|]. change (sum []) with 0; lia.
  - destruct (way_of c) eqn:W.
    + exists c; split; [now left|exact W].
    + specialize (IH pending). destruct (scan way_of t pending) as [p|].
      * destruct IH as (A & B & C). split; [intros x [<-|I]; [congruence|now apply A]|]. split.
        { intros x. rewrite (B x). cbn. split; [tauto|]. intros [I|[[<-|I] P]]; [tauto|congruence|tauto]. }
        { change (sum (c :: t)) with (size c + sum t). lia. }
      * destruct IH as (x & I & S). exists x; split; [now right|exact S].
    + specialize (IH (c :: pending)). destruct (scan way_of t (c :: pending)) as [p|].
      * destruct IH as (A & B & C). split; [intros x [<-|I]; [congruence|now apply A]|]. split.
        { intros x. rewrite (B x). cbn. split; [intros [[<-|I]|I]; tauto|]. intros [I|[[<-|I] P]]; tauto. }
        { change (sum (c :: t)) with (size c + sum t). change (sum (c :: pending)) with (size c + sum pending) in C. lia. }
      * destruct IH as (x & I & S). exists x; split; [now right|exact S].
Qed.
Lemma below_first n m : below push n m -> In m (kids n) \/ exists c, In c (kids n) /\ push c /\ below push c m.
Proof.
  induction 1 as [c I|m c B IH P I]; [now left|]. right. destruct IH as [J|(x & J & Q & K)].
  - exists m; repeat split; auto. now apply child.
  - exists x; repeat split; auto. now apply deeper with m.
Qed.
Lemma below_under n c m : In c (kids n) -> push c -> below push c m -> below push n m.
Proof.
  intros I P B. induction B as [x J|y x B IH Q J].
  - apply deeper with c; auto. now apply child.
  - now apply deeper with y.
Qed.
Lemma walk_spec f : forall pending, sum pending <= f ->
  walk way_of f pending = true <-> (forall p c, In p pending -> below push p c -> way_of c <> Stop).
Proof.
  induction f as [|f IH]; intros [|n rest] L; cbn [walk].
  - split; [intros _ p c []|reflexivity].
  - change (sum (n :: rest)) with (size n + sum rest) in L. rewrite size_eq in L. lia.
  - split; [intros _ p c []|reflexivity].
  - pose proof (scan_spec (kids n) rest) as S. destruct (scan way_of (kids n) rest) as [p|].
    + destruct S as (A & B & C). assert (L' : sum p <= f).
      { change (sum (n :: rest)) with (size n + sum rest) in L. rewrite (size_eq n) in L. lia. }
      rewrite (IH p L'). split.
      * intros H q c [<-|I] W.
        { apply below_first in W as [K|(x & K & P & W)]; [now apply A|]. apply (H x); [|exact W]. apply B. now right. }
        { apply (H q); [|exact W]. apply B. now left. }
      * intros H q c I W. apply B in I as [I|[I P]].
        { apply (H q); [now right|exact W]. }
        { apply (H n); [now left|]. now apply below_under with q. }
    + split; [discriminate|]. intros H. exfalso. destruct S as (c & I & S). apply (H n c); [now left| |exact S]. now apply child.
Qed.
Lemma walk_one n : walk way_of (size n) [n] = true <-> (forall c, below push n c -> way_of c <> Stop).
Proof.
  rewrite walk_spec by (change (sum [n]) with (size n + 0); lia). split.
  - intros H c W. apply (H n); [now left|exact W].
  - intros H p c [<-|[]] W. now apply H.
Qed.
End Walk.

Lemma drop_nil p (s : str) : drop_while p s = [] <-> forallb p s = true.
Proof. induction s as [|c t IH]; cbn; [tauto|]. destruct (p c); cbn; [exact IH|split; discriminate]. Qed.
Lemma drop_head p (s : str) c t : drop_while p s = c :: t -> p c = false.
Proof. induction s as [|x s IH]; cbn; [discriminate|]. destruct (p x) eqn:P; [exact IH|]. intros E; inversion E; subst; exact P. Qed.
Lemma strip_nil p (s : str) : strip_by p s = [] <-> forallb p s = true.
Proof.
  unfold strip_by, rstrip_by, lstrip_by. rewrite <- drop_nil. split.
  - intros H. destruct (drop_while p s) as [|c t] eqn:D; [reflexivity|]. exfalso.
    apply (f_equal (@rev _)) in H. rewrite rev_involutive in H. cbn [rev] in H. apply drop_nil in H.
    rewrite forallb_app in H. apply andb_true_iff in H as [_ H]. cbn in H. rewrite (drop_head _ _ _ _ D) in H. discriminate H.
  - intros ->. reflexivity.
Qed.
Lemma blank_spec chars d : blank chars d = true <-> only chars d.
Proof.
  unfold blank, only, strip_chars. transitivity (strip_by (fun c => mem c chars) (or_empty d) = []).
  { destruct (strip_by _ _); split; congruence. }
  rewrite strip_nil, forallb_forall. destruct d as [s|]; cbn; split.
  - intros H s' c [= <-] I. specialize (H c I). unfold mem in H. apply existsb_exists in H as (x & J & E). apply N.eqb_eq in E. now subst.
  - intros H c I. unfold mem. apply existsb_exists. exists c. split; [now apply (H s)|apply N.eqb_refl].
  - intros _ s c [=].
  - intros _ c [].
Qed.
Lemma below_mono (P Q : node -> Prop) n m : (forall x c, P x -> In c (kids x) -> Q x) -> below P n m -> below Q n m.
Proof. intros H. induction 1 as [c I|x c B IH K I]; [now apply child|]. apply deeper with x; eauto. Qed.
Lemma foreign_spec n : foreign_allows n = true <-> (forall d, below anything n (Text d) -> only [32; 9; 10; 12; 13; 65533]%N d).
Proof.
  unfold foreign_allows. rewrite walk_one. split.
  - intros H d B. assert (W : foreign_way (Text d) <> Stop).
    { apply H. revert B. apply below_mono. intros [e|nm ns a c] y _ I; [destruct I|reflexivity]. }
    cbn [foreign_way] in W. change (space ++ [65533%N]) with [32; 9; 10; 12; 13; 65533]%N in W. destruct (blank _ d) eqn:E; [|now destruct W]. now apply blank_spec.
  - intros H [d|nm ns a c] B; [|discriminate]. cbn [foreign_way]. change (space ++ [65533%N]) with [32; 9; 10; 12; 13; 65533]%N.
    assert (E : blank [32; 9; 10; 12; 13; 65533]%N d = true); [|rewrite E; discriminate]. apply blank_spec, H. revert B. apply below_mono. intros; exact I.
Qed.
Lemma html_ns_spec ns : html_ns ns = true <-> in_html ns.
Proof. destruct ns as [s|]; cbn [html_ns]; unfold in_html; [|tauto]. destruct (str_eqb_spec s (u "html")) as [->|N].
  - split; [intros _; now right|reflexivity].
  - split; [discriminate|]. intros [H|H]; congruence.
Qed.
Lemma parser_only_spec ns : parser_only ns = true <-> ns = Some (u "justhtml-parser-only").
Proof. destruct ns as [s|]; cbn [parser_only]; [|split; discriminate]. destruct (str_eqb_spec s (u "justhtml-parser-only")) as [->|N]; split; congruence. Qed.
Lemma hidden_spec attrs : hidden attrs = true <-> exists v, get (u "type") attrs = Some (Some v) /\ lower v = u "hidden".
Proof.
  unfold hidden. destruct (get (u "type") attrs) as [[v|]|]; [|split; [discriminate|intros (v & [=] & _)]|split; [discriminate|intros (v & [=] & _)]].
  destruct (str_eqb_spec (lower v) (u "hidden")) as [E|N]; split; try discriminate; eauto. intros (w & [= <-] & H). contradiction.
Qed.
Lemma ok_spec x : in_strs x ok_tags = true <-> In x harmless_names.
Proof. rewrite in_strs_In. reflexivity. Qed.
Lemma not_parser_only ns : in_html ns -> parser_only ns = false.
Proof. intros [->| ->]; reflexivity. Qed.
Lemma push_spec c : body_way c = Push <-> plain c.
Proof.
  destruct c as [d|name ns at_ c]; cbn [body_way].
  - destruct (blank _ d); split; try discriminate; intros (? & ? & ? & ? & [=] & _).
  - split.
    + destruct (parser_only ns) eqn:P; [discriminate|]. destruct (html_ns ns) eqn:H; cbn [negb]; [|destruct (foreign_allows _); discriminate].
      destruct (str_eqb name (u "input")); [destruct (hidden at_); discriminate|]. destruct (in_strs name ok_tags) eqn:O; [|discriminate]. intros _.
      exists name, ns, at_, c. split; [reflexivity|]. split; [now apply html_ns_spec|now apply ok_spec].
    + intros (n & s & a & k & [= <- <- <- <-] & H & I). rewrite (not_parser_only _ H). apply html_ns_spec in H. rewrite H. cbn [negb].
      apply ok_spec in I. rewrite I. cbn [negb].
      destruct (str_eqb_spec name (u "input")) as [->|_]; [vm_compute in I; discriminate I|reflexivity].
Qed.
Lemma stop_spec c : body_way c <> Stop <-> replaceable c.
Proof.
  split.
  - intros W. destruct (body_way c) eqn:E; [now destruct W| |right; left; now apply push_spec]. clear W.
    destruct c as [d|name ns at_ c]; cbn [body_way] in E.
    + destruct (blank space d) eqn:B; [|discriminate]. left. exists d. split; [reflexivity|now apply blank_spec in B].
    + destruct (parser_only ns) eqn:P; [discriminate|]. destruct (html_ns ns) eqn:H; cbn [negb] in E.
      * destruct (str_eqb_spec name (u "input")) as [->|_]; [|destruct (in_strs name ok_tags); discriminate].
        destruct (hidden at_) eqn:K; [|discriminate]. right; right; left. apply hidden_spec in K as (v & G & L). exists ns, at_, c, v. repeat split; auto. now apply html_ns_spec.
      * destruct (foreign_allows (Elt name ns at_ c)) eqn:F; [|discriminate]. right; right; right. split; [|now apply foreign_spec].
        destruct ns as [s|]; [|discriminate H]. exists name, s, at_, c. split; [reflexivity|]. split; intros ->; discriminate.
  - intros [(d & -> & O)|[O|[(ns & at_ & c0 & v & -> & H & G & L)|[(name & ns & at_ & c0 & -> & N1 & N2) O]]]].
    + cbn [body_way]. apply blank_spec in O. change [32; 9; 10; 12; 13]%N with space in O. rewrite O. discriminate.
    + apply push_spec in O. rewrite O. discriminate.
    + cbn [body_way]. rewrite (not_parser_only _ H). apply html_ns_spec in H. rewrite H. cbn [negb]. change (str_eqb (u "input") (u "input")) with true. cbv iota.
      assert (K : hidden at_ = true) by (apply hidden_spec; eauto). rewrite K. discriminate.
    + apply foreign_spec in O. cbn [body_way html_ns parser_only]. destruct (str_eqb_spec ns (u "justhtml-parser-only")); [contradiction|].
      destruct (str_eqb_spec ns (u "html")); [contradiction|]. cbn [negb]. rewrite O. discriminate.
Qed.
Lemma body_spec n : body_allows n = true <-> (forall m, below plain n m -> replaceable m).
Proof.
  unfold body_allows. rewrite walk_one. split; intros H m B.
  - apply stop_spec, H. revert B. apply below_mono. intros x _ P _. now apply push_spec.
  - apply stop_spec, H. revert B. apply below_mono. intros x _ P _. now apply push_spec.
Qed.

(* a node below is reached through plain elements, or is below a node reached so that is not plain *)
Lemma below_split n m : below anything n m -> below plain n m \/ exists f, below plain n f /\ ~ plain f /\ below anything f m.
Proof.
  induction 1 as [c I|x c B IH _ I]; [left; now apply child|]. destruct IH as [P|(f & P & N & K)].
  - destruct (body_way x) eqn:W.
    1,2: right; exists x; split; [exact P|split; [intros Q; apply push_spec in Q; congruence|now apply child]].
    left. apply deeper with x; auto. now apply push_spec.
  - right. exists f. repeat split; auto. apply deeper with x; auto. exact Logic.I.
Qed.
Lemma harmless_ok name : In name harmless_names -> ~ In name not_ok_names /\ name <> u "input".
Proof.
  intros H. split.
  - intros K. assert (F : forallb (fun x => negb (in_strs x not_ok_names)) harmless_names = true) by (vm_compute; reflexivity).
    rewrite forallb_forall in F. specialize (F _ H). apply in_strs_In in K. rewrite K in F. discriminate F.
  - intros ->. apply in_strs_In in H. vm_compute in H. discriminate H.
Qed.
