(* SPECIFICATION for C65: what a sanitized element is, and which elements are accounted for *)
From Coq Require Import List Arith Bool String.
From Verif Require Import Str.
From Verif Require Import FinishModel AaaModel ReconModel GuardModel.
From Verif Require AttrModel.
Import ListNotations.
Open Scope string_scope. Open Scope list_scope. Open Scope nat_scope.

Section guard.
Variable allowed : str -> bool.
Variable acts : str -> AttrModel.action.
(* an attribute the policy gives to the tag, with a value its URL rule has passed *)
Definition sound (name : str) (p : str * str) : Prop :=
  In (fst p) (AttrModel.allowed (acts name)) /\ exists w, AttrModel.url (acts name) (fst p) w = Some (snd p).
(* an HTML element of an allowed name, all its attributes sound *)
Definition sanitized (s : gst) (x : nat) : Prop :=
  exists name, tags (base s) x = (name, Html) /\ allowed name = true /\ Forall (sound name) (attr s x).
(* every element made so far is sanitized or will be taken out *)
Definition accounted (s : gst) : Prop := forall x, x < next (base s) -> sanitized s x \/ In x (drops s) \/ In x (unwraps s).
(* what the policy is assumed to be: for allowed tags no attribute is kept for the parser alone (as in the built-in policies: neither input nor option is allowed) *)
Definition plain_policy : Prop := forall name, allowed name = true -> AttrModel.preserve_state (acts name) = false /\ forall k, In k (AttrModel.state_attrs (acts name)) -> In k (AttrModel.allowed (acts name)).
(* before anything is parsed: the root elements, and no formatting *)
Definition fresh (s : gst) : Prop := active (base s) = [] /\ accounted s.
End guard.

(* the only case in which an element can escape: an `a` start tag that is given all its attributes (or is not read by the compiled path) and, after the adoption agency
   algorithm has closed an earlier `a`, would become a foreign element.  html_text: the current node is HTML or an integration point *)
Section run.
Variable allowed : str -> bool.
Variable acts : str -> AttrModel.action.
Variable strict : bool.
Variable strip : str -> str.
Variable adjust : space -> attrs -> attrs.
Variable context : option nat.
Definition tame (ev : gevent) (s : gst) : Prop :=
  match ev with
  | GFormat _ _ compiled name _ => name = u "a" -> (compiled = false \/ foreign (tags (base s) (cur s)) = true) -> forall s1, make_room allowed name s = Some s1 -> html_text name s1 = true
  | _ => True
  end.
Fixpoint tame_run (evs : list gevent) (s : gst) : Prop :=
  match evs with [] => True | e :: evs => tame e s /\ forall s', gstep allowed acts strict strip adjust context e s = Some s' -> tame_run evs s' end.
End run.
