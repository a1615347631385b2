(* an end tag with no quote in it ends at the first > *)
From Coq Require Import Lia ZifyBool ZifyN ZifyNat.
From Verif Require Import Str StrFacts HtmlCharRefSpec HtmlTokSpec TokFacts CharRefFacts.
Open Scope list_scope. Open Scope N_scope.

Local Opaque charref switch.
Section Tail.
Variables (sc : bool) (name last : str).
Definition in_tag (s : state) : Prop :=
  match s with
  | BeforeAttrName t | AttrName t _ | AfterAttrName t _ | BeforeAttrValue t _ | AttrValUnq t _ _ | SelfClosing t => t_end t = true /\ t_name t = name
  | _ => False
  end.
Definition good (r : list token * nat * state * str) (c : N) (rest : str) : Prop :=
  if c =? 62 then r = ([TEnd name], O, Data, last)
  else exists n s', r = ([], n, s', last) /\ in_tag s' /\ (n <= List.length rest)%nat /\ forallb refchar (firstn n rest) = true.
Lemma add_end t n v : t_end (add_attr t n v) = t_end t /\ t_name (add_attr t n v) = t_name t.
Proof. split; reflexivity. Qed.
Lemma good_eat c rest s' : c <> 62 -> in_tag s' -> good ([], O, s', last) c rest.
Proof. intros H I. unfold good. replace (c =? 62) with false by lia. exists O, s'. repeat split; [exact I|lia]. Qed.
Lemma step_in s c rest : in_tag s -> c <> 34 -> c <> 39 -> good (resolve sc 6 last s c rest) c rest.
Proof.
  intros I N34 N39.
  assert (E34 : (c =? 34) = false) by lia. assert (E39 : (c =? 39) = false) by lia.
  assert (Cls : (ws c = true /\ (c =? 47) = false /\ (c =? 61) = false /\ (c =? 62) = false /\ (c =? 38) = false) \/ (ws c = false /\ (c =? 47) = true /\ (c =? 61) = false /\ (c =? 62) = false /\ (c =? 38) = false)
    \/ (ws c = false /\ (c =? 47) = false /\ (c =? 61) = true /\ (c =? 62) = false /\ (c =? 38) = false) \/ (ws c = false /\ (c =? 47) = false /\ (c =? 61) = false /\ (c =? 62) = true /\ (c =? 38) = false)
    \/ (ws c = false /\ (c =? 47) = false /\ (c =? 61) = false /\ (c =? 62) = false /\ (c =? 38) = true) \/ (ws c = false /\ (c =? 47) = false /\ (c =? 61) = false /\ (c =? 62) = false /\ (c =? 38) = false)).
  { destruct (ws c) eqn:W; [left; unfold ws in W; repeat split; lia|]. destruct (N.eqb_spec c 47) as [->|]; [right; left; repeat split|]. destruct (N.eqb_spec c 61) as [->|]; [right; right; left; repeat split|]. destruct (N.eqb_spec c 62) as [->|]; [right; right; right; left; repeat split|]. destruct (N.eqb_spec c 38) as [->|]; [right; right; right; right; left; repeat split|]. right; right; right; right; right; repeat split. }
  assert (Fin : forall n, (c =? 62) = false -> forall s', in_tag s' -> (n <= List.length rest)%nat -> forallb refchar (firstn n rest) = true -> good ([], n, s', last) c rest).
  { intros n E s' K L F. unfold good. rewrite E. exists n, s'. repeat split; assumption. }
  assert (Fend : forall t, (c =? 62) = true -> t_end t = true -> t_name t = name -> forall b, good (if t_end t then ([TEnd (t_name t)], O, Data, last) else ([TStart (t_name t) (t_attrs t) b], O, switch sc (t_name t), t_name t)) c rest).
  { intros t E A B b. unfold good. rewrite E, A, B. reflexivity. }
  destruct s; try contradiction; destruct I as [I1 I2];
  destruct Cls as [(A & B & C & D & E)|[(A & B & C & D & E)|[(A & B & C & D & E)|[(A & B & C & D & E)|[(A & B & C & D & E)|(A & B & C & D & E)]]]]];
  cbn [resolve step]; repeat (progress (rewrite ?A, ?B, ?C, ?D, ?E, ?E34, ?E39; cbn [orb andb resolve step eat out app]));
  try match goal with |- context [match ?n with [] => false | _ :: _ => true end] => destruct n end;
  repeat (progress (rewrite ?A, ?B, ?C, ?D, ?E, ?E34, ?E39; cbn [orb andb resolve step eat out app]));
  try match goal with |- context [charref true rest] => destruct (charref true rest) as [[w k]|] eqn:Ch end;
  try (destruct (charref_chars _ _ _ _ Ch)); 
  try (rewrite ?I1, ?I2; unfold good; rewrite D; reflexivity);
  try (apply Fin; [exact D|split; [exact I1|exact I2]|try assumption; cbn [List.length]; lia|try assumption; reflexivity]).
  all: destruct n; unfold add_attr; cbn [t_end t_name]; rewrite ?I1, ?I2; try (unfold good; rewrite D; reflexivity).
  all: apply Fin; [exact D|split; try exact I1; try exact I2; reflexivity|cbn [List.length]; lia|reflexivity].
Qed.
Lemma tail_run u : forall k s, in_tag s -> (k <= List.length u)%nat -> forallb refchar (firstn k u) = true -> (forall c, In c (take_while (fun x => negb (x =? 62)) u) -> c <> 34 /\ c <> 39) ->
  run sc k last s u = if existsb (fun x => x =? 62) u then TEnd name :: run sc O last Data (skipn (S (List.length (take_while (fun x => negb (x =? 62)) u))) u) else [].
Proof.
  induction u as [|c u IH]; intros k s I L F Q.
  - cbn [run existsb]. destruct s; try contradiction; reflexivity.
  - cbn [take_while existsb] in *. destruct k as [|k].
    + cbn [run]. destruct (N.eqb_spec c 62) as [->|Nc].
      * cbn [negb orb List.length skipn]. pose proof (step_in s 62 u I) as G. specialize (G ltac:(discriminate) ltac:(discriminate)). unfold good in G. cbn [N.eqb Pos.eqb] in G. rewrite G. reflexivity.
      * cbn [negb orb List.length] in *. destruct (Q c (or_introl eq_refl)) as [Q1 Q2]. pose proof (step_in s c u I Q1 Q2) as G. unfold good in G. replace (c =? 62) with false in G by lia. destruct G as (n & s' & -> & I' & L' & F'). cbn [app]. rewrite (IH n s' I' L' F') by (intros x X; apply Q; right; exact X). reflexivity.
    + cbn [run firstn forallb List.length] in *. apply andb_true_iff in F as [Fc F]. assert (Nc : (c =? 62) = false) by (destruct (N.eqb_spec c 62) as [->|]; [discriminate Fc|reflexivity]). rewrite Nc in *. cbn [negb orb List.length] in *. rewrite (IH k s I) by (try assumption; try lia; intros x X; apply Q; right; exact X). reflexivity.
Qed.
End Tail.
