(* What docs/transforms.md says JustHTML(..., transforms=..., sanitize=..., policy=...) does after parsing: which operations are carried out, in which
   order, with which policy.  Independent of compilation, chaining, batching and walks.  No proofs in this file. *)
From Coq Require Import PeanoNat NArith List Bool.
From Verif Require Import Str PlanModel.
Import ListNotations.
Open Scope nat_scope.

(* One operation. *)
Inductive prim :=
  | PDo (f : N) | PAttrs (sel : str) (f : N) | PDecide (sel : str) (f : N) | PDocument (f : N) | PPrune (f : N)
  | PForeign (p : policy) (cb rep : option N) | PElements (p : policy) (cb rep : option N) | PInvisible (p : policy) (cb rep : option N)
  | PAttributes (p : policy) (cb rep : option N) | PLinkRel (p : policy) (cb rep : option N)
  | PComments (p : policy) (cb rep : option N) | PDoctype (p : policy) (cb rep : option N) | PRawtext (p : policy).

(* What a Sanitize does: foreign content, elements, invisible characters, attributes, rel, comments, doctype, contents of script and style. *)
Definition sanitize_ops (p : policy) (cb rep : option N) : list prim :=
  [PForeign p cb rep; PElements p cb rep] ++ (if p_strip p then [PInvisible p cb rep] else []) ++ [PAttributes p cb rep]
  ++ (if p_rel p then [PLinkRel p cb rep] else []) ++ (if p_comments p then [PComments p cb rep] else [])
  ++ (if p_doctype p then [PDoctype p cb rep] else []) ++ (if p_rawtext p then [PRawtext p] else []).

(* A transform without a policy of its own takes d, the policy of the constructor. *)
Definition own_or (d : policy) (p : option policy) : policy := match p with Some q => q | None => d end.
Definition ops (d : policy) (t : transform) : list prim :=
  match t with
  | TPlain f _ | TEscape f _ => [PDo f]
  | TTagDrop f _ => [PDecide [42%N] f]
  | TAttrs sel f _ => [PAttrs sel f]
  | TDecide sel f _ => [PDecide sel f]
  | TMerge f tokens _ => if tokens then [PDo f] else []
  | TDocument f _ => [PDocument f]
  | TPrune f _ => [PPrune f]
  | TSanitize p _ cb rep => sanitize_ops (own_or d p) cb rep
  | THarden p _ => [PRawtext (own_or d p)]
  | TUnknown _ => []
  end.

(* The transforms that are not inside a disabled stage, in order; those of them that are enabled. *)
Fixpoint leaves (s : spec) : list transform :=
  match s with
  | Leaf t => [t]
  | Stage false _ _ _ => []
  | Stage true _ _ l => flat_map leaves l
  end.
Definition all_leaves (l : list spec) : list transform := flat_map leaves l.
Definition active (l : list spec) : list transform := filter enabled (all_leaves l).

(* Top-level stages.  A disabled stage is as if it was not there; transforms between stages form a stage of their own. *)
Definition present (s : spec) : bool := match s with Stage false _ _ _ => false | _ => true end.
Definition visible (l : list spec) : list spec := filter present l.
Definition staged (l : list spec) : bool := existsb (fun s => match s with Stage true _ _ _ => true | _ => false end) l.
Definition leaf (s : spec) : bool := match s with Leaf _ => true | _ => false end.
Inductive groups : list spec -> list (option N * option N * list spec) -> Prop :=
  | groups_nil : groups [] []
  | groups_stage en cb rep l r gs : groups r gs -> groups (Stage en cb rep l :: r) ((cb, rep, l) :: gs)
  | groups_leaves ls r gs : ls <> [] -> forallb leaf ls = true -> (forall s r', r = s :: r' -> leaf s = false) ->
      groups r gs -> groups (ls ++ r) ((None, None, ls) :: gs).

(* What happens: the hooks of the stages and the operations. *)
Inductive entry := Hook (index : nat) (callback report : option N) | Do (p : prim).
Fixpoint stage_entries (d : policy) (i : nat) (gs : list (option N * option N * list spec)) : list entry :=
  match gs with
  | [] => []
  | (cb, rep, l) :: r => (Hook i cb rep :: map Do (flat_map (ops d) (active l))) ++ stage_entries d (S i) r
  end.
Definition expected (d : policy) (l : list spec) (gs : list (option N * option N * list spec)) : list entry :=
  if staged l then stage_entries d 0 gs else map Do (flat_map (ops d) (active l)).

(* The constructor's list: a Sanitize is appended when sanitize is on and the list has none. *)
Definition is_sanitize (t : transform) : bool := match t with TSanitize _ _ _ _ => true | _ => false end.
Definition asked (sanitize : bool) (d : policy) (l : list spec) : list spec :=
  if sanitize && negb (existsb is_sanitize (all_leaves l)) then l ++ [Leaf (TSanitize (Some d) true None None)] else l.
(* The policy of the constructor: the one given, else the default one for a fragment or a document. *)
Definition effective (fragment_default document_default : policy) (fragment : bool) (p : option policy) : policy :=
  own_or (if fragment then fragment_default else document_default) p.

(* What the events of the runtime do, one after the other. *)
Definition walk_prim (w : walk) : prim :=
  match w with
  | WPlain f | WEscape f | WMerge f => PDo f
  | WForeign p cb rep => PForeign p cb rep | WElements p cb rep => PElements p cb rep | WStrip p cb rep => PInvisible p cb rep
  | WSanAttrs p cb rep => PAttributes p cb rep | WSanRel p cb rep => PLinkRel p cb rep
  | WComments p cb rep => PComments p cb rep | WDoctype p cb rep => PDoctype p cb rep
  end.
Definition item_prims (c : compiled) : list prim :=
  match c with
  | CWalk w => [walk_prim w]
  | CAttrs sel _ f => [PAttrs sel f] | CAttrsChain sel _ fs => map (PAttrs sel) fs
  | CDecide sel _ f => [PDecide sel f] | CDecideChain sel _ fs => map (PDecide sel) fs
  | _ => []
  end.
Definition happens1 (e : event) : list entry :=
  match e with
  | EWalk l => map Do (flat_map item_prims l)
  | EHook i cb rep => [Hook i cb rep]
  | EDocument f => [Do (PDocument f)]
  | EPrune fs => map (fun f => Do (PPrune f)) fs
  | EHarden p => [Do (PRawtext p)]
  end.
Definition happens (l : list event) : list entry := flat_map happens1 l.

(* The last enabled Sanitize controls the selector limits (docs/transforms.md:186). *)
Fixpoint last_sanitize (d : policy) (l : list transform) (now : option policy) : option policy :=
  match l with
  | [] => now
  | TSanitize p true _ _ :: r => last_sanitize d r (Some (own_or d p))
  | _ :: r => last_sanitize d r now
  end.
Definition documented_limits (d : policy) (default_limits : N) (l : list spec) : N :=
  match last_sanitize d (all_leaves l) None with Some p => p_limits p | None => default_limits end.

(* Does an operation need the source text of tags? *)
Definition escapes (d : policy) (t : transform) : bool :=
  enabled t && match t with TEscape _ _ => true | TSanitize p _ _ _ => p_escape (own_or d p) | _ => false end.
