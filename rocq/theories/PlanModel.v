(* What JustHTML(...) runs after parsing: which transforms, in which order and batches, with which policies.
   Model of src/justhtml/parser/__init__.py (constructor), transforms/compile.py and the scheduling loop of transforms/runtime.py.
   Node functions, callbacks and reports are opaque numbers; selectors are strings.  No proofs in this file. *)
From Coq Require Import PeanoNat NArith List Bool.
From Verif Require Import Str.
Import ListNotations.
Open Scope nat_scope.

(* sanitizer/policy.py SanitizationPolicy: the fields the planning looks at.  p_key is the identity of the object. *)
Record policy := Pol { p_key : N; p_escape : bool; p_limits : N; p_strip : bool; p_css : bool; p_rel : bool; p_comments : bool; p_doctype : bool; p_rawtext : bool }.

(* transforms/spec.py: the transform objects.  TPlain stands for SetAttrs, selector Drop, Unwrap, Empty, Edit, Linkify, CollapseWhitespace, DropComments,
   DropDoctype and DropForeignNamespaces; TTagDrop for Drop of plain tag names; TAttrs for EditAttrs, DropAttrs, AllowlistAttrs, DropUrlAttrs and AllowStyleAttrs;
   TMerge for MergeAttrs (tokens given or not); TUnknown for any other object. *)
Inductive transform :=
  | TPlain (f : N) (enabled : bool) | TEscape (f : N) (enabled : bool) | TTagDrop (f : N) (enabled : bool)
  | TAttrs (sel : str) (f : N) (enabled : bool) | TDecide (sel : str) (f : N) (enabled : bool)
  | TMerge (f : N) (tokens : bool) (enabled : bool) | TDocument (f : N) (enabled : bool) | TPrune (f : N) (enabled : bool)
  | TSanitize (p : option policy) (enabled : bool) (callback report : option N)
  | THarden (p : option policy) (enabled : bool)
  | TUnknown (f : N).
(* transforms/__init__.py:168-203 Stage *)
Inductive spec := Leaf (t : transform) | Stage (enabled : bool) (callback report : option N) (l : list spec).

Definition enabled (t : transform) : bool :=
  match t with
  | TPlain _ e | TEscape _ e | TTagDrop _ e | TAttrs _ _ e | TDecide _ _ e | TMerge _ _ e | TDocument _ e | TPrune _ e | TSanitize _ e _ _ | THarden _ e => e
  | TUnknown _ => true
  end.

(* compile.py:111-123 _iter_flattened_transforms *)
Fixpoint flatten1 (s : spec) : list transform :=
  match s with Leaf t => [t] | Stage en _ _ l => if en then flat_map flatten1 l else [] end.
Definition flatten (specs : list spec) : list transform := flat_map flatten1 specs.

(* compile.py:126-166 _normalize_transform_policies *)
Fixpoint normalize1 (d : policy) (s : spec) : spec :=
  match s with
  | Leaf (TSanitize None e cb rep) => Leaf (TSanitize (Some d) e cb rep)
  | Leaf (THarden None e) => Leaf (THarden (Some d) e)
  | Stage en cb rep l => Stage en cb rep (map (normalize1 d) l)
  | Leaf t => Leaf t
  end.
Definition normalize (d : policy) (specs : list spec) : list spec := map (normalize1 d) specs.

(* compile.py:169-202 _transform_parse_requirements *)
Record requirements := Req { track_tag_spans : bool; has_sanitize : bool; has_harden : bool; sanitize_policy : option policy; rawtext_policy : option policy }.
Definition or_else {A} (a b : option A) : option A := match a with Some x => Some x | None => b end.
Definition require (fallback : option policy) (default : policy) (r : requirements) (t : transform) : requirements :=
  match t with
  | TEscape _ _ => Req true (has_sanitize r) (has_harden r) (sanitize_policy r) (rawtext_policy r)
  | TSanitize p _ _ _ =>
    let effective := match or_else p fallback with Some q => q | None => default end in
    Req (track_tag_spans r || p_escape effective) true (has_harden r) (or_else (sanitize_policy r) p) (rawtext_policy r)
  | THarden p _ => Req (track_tag_spans r) (has_sanitize r) true (sanitize_policy r) (or_else (rawtext_policy r) p)
  | _ => r
  end.
Definition parse_requirements (specs : list spec) (fallback : option policy) (default : policy) : requirements :=
  fold_left (require fallback default) (flatten specs) (Req false false false None None).

(* transforms/__init__.py:230-430, the compiled transforms.  The pieces of a compiled Sanitize keep the policy and the hooks. *)
Inductive walk :=
  | WPlain (f : N) | WEscape (f : N) | WMerge (f : N)
  | WForeign (p : policy) (cb rep : option N) | WElements (p : policy) (cb rep : option N) | WStrip (p : policy) (cb rep : option N)
  | WSanAttrs (p : policy) (cb rep : option N) | WSanRel (p : policy) (cb rep : option N)
  | WComments (p : policy) (cb rep : option N) | WDoctype (p : policy) (cb rep : option N).
Inductive compiled :=
  | CWalk (w : walk)
  | CAttrs (sel : str) (all : bool) (f : N) | CAttrsChain (sel : str) (all : bool) (fs : list N)
  | CDecide (sel : str) (all : bool) (f : N) | CDecideChain (sel : str) (all : bool) (fs : list N)
  | CBoundary | CHook (index : nat) (callback report : option N)
  | CDocument (f : N) | CPrune (f : N) | CHarden (p : policy) | CLimits (limits : N).

(* compile.py:284-437 _compile_sanitize_transform.  WSanAttrs is the chain of AllowlistAttrs, DropUrlAttrs and, with p_css, AllowStyleAttrs that
   compile_transforms makes of sub_attrs (all on the selector "*"), WSanRel the MergeAttrs for rel. *)
Definition compile_sanitize (default : policy) (p : option policy) (cb rep : option N) : list compiled :=
  let q := match p with Some q => q | None => default end in
  ([CWalk (WForeign q cb rep); CWalk (WElements q cb rep)]
   ++ (if p_strip q then [CWalk (WStrip q cb rep)] else [])
   ++ [CWalk (WSanAttrs q cb rep)]
   ++ (if p_rel q then [CWalk (WSanRel q cb rep)] else [])
   ++ (if p_comments q then [CWalk (WComments q cb rep)] else [])
   ++ (if p_doctype q then [CWalk (WDoctype q cb rep)] else [])
   ++ [if p_rawtext q then CHarden q else CLimits (p_limits q)])%list.

(* compile.py:1072-1106 _append_compiled_transform; the list is kept in reverse, the last item first *)
Definition append_compiled (acc : list compiled) (item : compiled) : list compiled :=
  match item, acc with
  | CAttrs sel all f, CAttrsChain sel' all' fs :: r => if str_eqb sel' sel && Bool.eqb all' all then CAttrsChain sel' all' (fs ++ [f]) :: r else item :: acc
  | CAttrs sel all f, CAttrs sel' all' f' :: r => if str_eqb sel' sel && Bool.eqb all' all then CAttrsChain sel' all' [f'; f] :: r else item :: acc
  | CDecide sel all f, CDecideChain sel' all' fs :: r => if str_eqb sel' sel && Bool.eqb all' all then CDecideChain sel' all' (fs ++ [f]) :: r else item :: acc
  | CDecide sel all f, CDecide sel' all' f' :: r => if str_eqb sel' sel && Bool.eqb all' all then CDecideChain sel' all' [f'; f] :: r else item :: acc
  | _, _ => item :: acc
  end.

Definition star : str := [42%N].
(* compile.py:557, 596, 637, 733, 816, 925: all_nodes = selector_str.strip() == "*" *)
Definition all_nodes (sel : str) : bool := str_eqb (strip sel) star.

(* compile.py:1108-1306, the functions of _TRANSFORM_LOWERERS *)
Definition lower (default : policy) (acc : list compiled) (t : transform) : list compiled :=
  match t with
  | TPlain f _ => CWalk (WPlain f) :: acc
  | TEscape f _ => CWalk (WEscape f) :: acc
  | TTagDrop f _ => CDecide star true f :: acc
  | TAttrs sel f _ => append_compiled acc (CAttrs sel (all_nodes sel) f)
  | TDecide sel f _ => append_compiled acc (CDecide sel (all_nodes sel) f)
  | TMerge f tokens _ => if tokens then CWalk (WMerge f) :: acc else acc
  | TDocument f _ => CDocument f :: acc
  | TPrune f _ => CPrune f :: acc
  | TSanitize p _ cb rep => fold_left append_compiled (compile_sanitize default p cb rep) acc
  | THarden p _ => CHarden (match p with Some q => q | None => default end) :: acc
  | TUnknown _ => acc
  end.
(* compile.py:1350-1360, the loop over flattened *)
Definition compile_flat (default : policy) (ts : list transform) : list compiled :=
  rev (fold_left (fun acc t => if enabled t then lower default acc t else acc) ts []).

(* compile.py:249-272 _split_into_top_level_stages: (callback, report, transforms) of each stage *)
Definition stage := (option N * option N * list spec)%type.
Fixpoint split_go (specs : list spec) (pending : list spec) : list stage :=
  let flush := match pending with [] => [] | _ => [(None, None, pending)] end in
  match specs with
  | [] => flush
  | Stage en cb rep l :: r => if en then (flush ++ (cb, rep, l) :: split_go r [])%list else split_go r pending
  | Leaf t :: r => split_go r (pending ++ [Leaf t])%list
  end.
Definition is_stage (s : spec) : bool := match s with Stage en _ _ _ => en | Leaf _ => false end.
Definition split (specs : list spec) : list stage := if existsb is_stage specs then split_go specs [] else [].

Definition unknown (t : transform) : bool := match t with TUnknown _ => true | _ => false end.
(* compile.py:1331-1348, one stage: the inner calls compile_transforms((inner,)) have one transform that is no stage *)
Definition compile_stage (default : policy) (i : nat) (s : stage) : list compiled :=
  let '(cb, rep, l) := s in
  ((if Nat.eqb i 0 then [] else [CBoundary]) ++ [CHook i cb rep] ++ flat_map (fun t => compile_flat default [t]) (flatten l))%list.
Fixpoint compile_stages (default : policy) (i : nat) (l : list stage) : list compiled :=
  match l with [] => [] | s :: r => (compile_stage default i s ++ compile_stages default (S i) r)%list end.
(* compile.py:1309-1360 compile_transforms.  None = TypeError for an unsupported transform *)
Definition compile_transforms (default : policy) (specs : list spec) : option (list compiled) :=
  match specs with
  | [] => Some []
  | _ =>
    if existsb unknown (flatten specs) then None else
    match split specs with
    | [] => Some (compile_flat default (flatten specs))
    | stages => Some (compile_stages default 0 stages)
    end
  end.
(* compile.py:275-281 _selector_limits_from_flattened: the limits selectors are parsed with *)
Definition parse_limits (default : policy) (default_limits : N) (specs : list spec) : N :=
  match List.find (fun t => enabled t && match t with TSanitize _ _ _ _ => true | _ => false end) (rev (flatten specs)) with
  | Some (TSanitize p _ _ _) => p_limits (match p with Some q => q | None => default end)
  | _ => default_limits
  end.
(* transforms/__init__.py:459-468 _selector_limits_from_compiled: the limits selectors are matched with *)
Fixpoint match_limits_go (default_limits : N) (rl : list compiled) : N :=
  match rl with
  | [] => default_limits
  | CLimits n :: _ => n
  | CHarden p :: _ => p_limits p
  | _ :: r => match_limits_go default_limits r
  end.
Definition match_limits (default_limits : N) (l : list compiled) : N := match_limits_go default_limits (rev l).

(* runtime.py:970-1043, the loop over compiled: what is run, in order.  A walk is one pass over the tree with all its transforms. *)
Inductive event := EWalk (l : list compiled) | EHook (index : nat) (callback report : option N) | EDocument (f : N) | EPrune (fs : list N) | EHarden (p : policy).
Definition is_walk (c : compiled) : bool :=
  match c with CWalk _ | CAttrs _ _ _ | CAttrsChain _ _ _ | CDecide _ _ _ | CDecideChain _ _ _ => true | _ => false end.
(* runtime.py:86-87: an empty walk does nothing *)
Definition flush (pending : list compiled) : list event := match pending with [] => [] | _ => [EWalk pending] end.
(* runtime.py:1023-1030: consecutive PruneEmpty run as one batch *)
Fixpoint prunes (l : list compiled) : list N := match l with CPrune f :: r => f :: prunes r | _ => [] end.
Fixpoint schedule (pending : list compiled) (in_prune : bool) (l : list compiled) : list event :=
  match l with
  | [] => flush pending
  | c :: r =>
    if is_walk c then schedule (pending ++ [c]) false r else
    (flush pending ++
     match c with
     | CHook i cb rep => EHook i cb rep :: schedule [] false r
     | CDocument f => EDocument f :: schedule [] false r
     | CPrune f => if in_prune then schedule [] true r else EPrune (f :: prunes r) :: schedule [] true r
     | CHarden p => EHarden p :: schedule [] false r
     | _ => schedule [] false r
     end)%list
  end.
Definition run (l : list compiled) : list event := schedule [] false l.

(* parser/__init__.py:95-330.  The default policies: fragment_default is DEFAULT_POLICY, document_default DEFAULT_DOCUMENT_POLICY; fragment tells
   the name of the root (engine.py:1599, 1670: #document-fragment or #document). *)
Inductive built := Fused | Raw (spans : bool) (l : list compiled) | Error.
Definition default_for (fragment_default document_default : policy) (fragment : bool) : policy := if fragment then fragment_default else document_default.
(* parser/__init__.py:183-187 use_compiled_safe_engine, engine.py:557-560 can_compile_engine_plan *)
Definition fused (fragment_default document_default : policy) (fragment sanitize : bool) (p : option policy) (ts : list spec) : bool :=
  sanitize && (match ts with [] => true | _ => false end) && match p with None => true | Some q => (p_key q =? p_key (default_for fragment_default document_default fragment))%N end.
(* parser/__init__.py:125-141: track_tag_spans *)
Definition spans (fragment_default : policy) (sanitize : bool) (p : option policy) (ts : list spec) : bool :=
  let r := match ts with [] => Req false false false None None | _ => parse_requirements ts p fragment_default end in
  track_tag_spans r || (sanitize && negb (has_sanitize r) && match p with Some q => p_escape q | None => false end).
(* parser/__init__.py:221-268 _apply_constructor_transforms: the transforms to run *)
Definition final_transforms (fragment_default document_default : policy) (fragment sanitize : bool) (p : option policy) (ts : list spec) : list spec :=
  let d := default_for fragment_default document_default fragment in
  let effective := match p with Some q => q | None => d end in
  let r := match ts with [] => Req false false false None None | _ => parse_requirements ts p fragment_default end in
  let final := match ts with [] => [] | _ => normalize effective ts end in
  if sanitize && negb (has_sanitize r) then (final ++ [Leaf (TSanitize (Some effective) true None None)])%list else final.
(* parser/__init__.py:292-305: one bare Sanitize runs the transforms the policy compiled for itself (sanitizer/policy.py:363-380; the cached copy is
   the result of the same call) *)
Definition plan (default : policy) (final : list spec) : option (list compiled) :=
  match final with
  | [Leaf (TSanitize (Some p) true None None)] => compile_transforms default [Leaf (TSanitize (Some p) true None None)]
  | _ => compile_transforms default final
  end.
Definition construct (fragment_default document_default : policy) (fragment sanitize : bool) (p : option policy) (ts : list spec) : built :=
  if fused fragment_default document_default fragment sanitize p ts then Fused else
  let sp := spans fragment_default sanitize p ts in
  if match ts with [] => negb sanitize | _ => false end then Raw sp [] else
  match plan fragment_default (final_transforms fragment_default document_default fragment sanitize p ts) with
  | None => Error
  | Some l => Raw sp l
  end.

(* runtime.py:486-500 (edit_attrs_chain) and the same for one edit_attrs: a chain is matched once.  [m] is matching, a function may return None for no change *)
Definition run_attrs {A} (m : A -> bool) (f : A -> option A) (a : A) : A := if m a then match f a with Some b => b | None => a end else a.
Definition run_attrs_chain {A} (m : A -> bool) (fs : list (A -> option A)) (a : A) : A :=
  if m a then fold_left (fun x f => match f x with Some y => y | None => x end) fs a else a.
(* runtime.py:401-725, the shape of a walk: each node is given to all the transforms of the walk before the next node is taken.  Nodes are numbers in
   the order of the walk, [A] is the state of the whole tree.  (The walk itself, with its cursor, is modelled in TransModel.) *)
Definition walk_nodes {A} (items : list (nat -> A -> A)) (nodes : list nat) (a : A) : A :=
  fold_left (fun a n => fold_left (fun a f => f n a) items a) nodes a.
