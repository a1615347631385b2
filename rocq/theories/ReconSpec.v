(* SPECIFICATION for C64: "reconstruct the active formatting elements" of https://html.spec.whatwg.org/multipage/parsing.html, on lists, and a parser that
   does it every time it is asked to, without a flag. *)
From Coq Require Import List Arith Bool String.
From Verif Require Import Str.
From Verif Require Import AaaModel AaaSpec ReconModel.
Import ListNotations.
Open Scope string_scope. Open Scope list_scope. Open Scope nat_scope.

Record sst := SSt { s_stack : list nat; s_list : list item; s_fresh : nat; s_done : list rop }.

(* step 8-10 for each entry from the one found to the last: create the element for the token, replace the entry *)
Fixpoint create_all (todo : list item) (kept : list item) (s : sst) : sst :=
  match todo with
  | [] => SSt (s_stack s) kept (s_fresh s) (s_done s)
  | El _ name token :: todo =>
    let x := s_fresh s in
    create_all todo (kept ++ [El x name token]) (SSt (s_stack s ++ [x]) [] (S x) (s_done s ++ [Create x name token (top (s_stack s))]))
  | i :: todo => create_all todo (kept ++ [i]) s
  end.
(* steps 1-7: rewind from the last entry to the one after a marker or an element that is open.  [back] is what precedes, backwards *)
Fixpoint std_rewind (back todo : list item) (s : sst) : sst :=
  match back with
  | El x n k :: back' => if existsb (Nat.eqb x) (s_stack s) then create_all todo (rev back) s else std_rewind back' (El x n k :: todo) s
  | _ => create_all todo (rev back) s
  end.
Definition std_reconstruct (s : sst) : sst := std_rewind (rev (s_list s)) [] s.

Fixpoint std_clear (back : list item) : list item := match back with [] => [] | Marker :: t => t | _ :: t => std_clear t end.

Definition sstep (ev : event) (s : sst) : sst :=
  match ev with
  | EText _ => let s := std_reconstruct s in SSt (s_stack s) (s_list s) (s_fresh s) (s_done s ++ [Text (top (s_stack s))])
  | EOpen recon =>
    let s := if recon then std_reconstruct s else s in
    SSt (s_stack s ++ [s_fresh s]) (s_list s) (S (s_fresh s)) (s_done s ++ [Create (s_fresh s) [] 0 (top (s_stack s))])
  | EFormat name token =>
    let s := std_reconstruct s in
    SSt (s_stack s ++ [s_fresh s]) (s_list s ++ [El (s_fresh s) name token]) (S (s_fresh s)) (s_done s ++ [Create (s_fresh s) name token (top (s_stack s))])
  | ENoah x => SSt (s_stack s) (without x (s_list s)) (s_fresh s) (s_done s)
  | EClose k => SSt (firstn k (s_stack s)) (s_list s) (s_fresh s) (s_done s)
  | EPlainPop => SSt (removelast (s_stack s)) (s_list s) (s_fresh s) (s_done s)
  | EMarker => SSt (s_stack s) (s_list s ++ [Marker]) (s_fresh s) (s_done s)
  | EClear k | ETemplateEnd k => SSt (firstn k (s_stack s)) (rev (std_clear (rev (s_list s)))) (s_fresh s) (s_done s)
  | EEnd _ => SSt (removelast (s_stack s)) (without (top (s_stack s)) (s_list s)) (s_fresh s) (s_done s)
  | EAdopt used st ac => SSt st (live ac) (s_fresh s + used) (s_done s)
  end.

(* an element is pushed after the formatting elements listed before it (since the last marker): if it is open so are they, below it *)
Definition below (x y : nat) (l : list nat) : Prop := exists a b c, l = a ++ x :: b ++ y :: c.
Definition in_order (l : list item) (stack : list nat) : Prop :=
  forall a x n k m y n' k' r, l = a ++ El x n k :: m ++ El y n' k' :: r -> ~ In Marker m -> In y stack -> below x y stack.
(* the entries after the last marker *)
Fixpoint since_marker (back : list item) : list item := match back with El x n k :: t => El x n k :: since_marker t | Bookmark :: t => since_marker t | _ => [] end.
Definition all_open (l : list item) (stack : list nat) : Prop := forall x n k, In (El x n k) (since_marker (rev l)) -> In x stack.

(* when an event can happen, and what is assumed of it *)
Definition can (ev : event) (s : sst) : Prop :=
  match ev with
  | EText in_caption => in_caption = true -> all_open (s_list s) (s_stack s)
  | ENoah x => In x (nodes (s_list s))
  | EPlainPop => ~ In (top (s_stack s)) (nodes (s_list s))
  (* the cell, caption, ... being closed was pushed with its marker: what is listed before the marker is below it *)
  | EClear k => forall x n t, In (El x n t) (since_marker (std_clear (rev (s_list s)))) -> In x (s_stack s) -> In x (firstn k (s_stack s))
  | ETemplateEnd k => all_open (rev (std_clear (rev (s_list s)))) (firstn k (s_stack s))
  | EEnd subject => s_stack s <> [] /\ exists n k, last_named subject (rev (s_list s)) = Some (top (s_stack s), n, k)
  | EAdopt used st ac =>
      NoDup st /\ NoDup (nodes (live ac)) /\ (forall x, In x st \/ In x (nodes (live ac)) -> x < s_fresh s + used) /\ in_order (live ac) st
  | _ => True
  end.
(* the start: only the root elements are open *)
Definition at_start (s : rst) : Prop := act s = [] /\ dirty s = false /\ NoDup (stk s) /\ (forall x, In x (stk s) -> x < fresh s).
Definition seen (s : rst) : sst := SSt (stk s) (live (act s)) (fresh s) (done s).
Fixpoint all_can (evs : list event) (s : sst) : Prop := match evs with [] => True | e :: evs => can e s /\ all_can evs (sstep e s) end.
Fixpoint rrun (evs : list event) (s : rst) : option rst := match evs with [] => Some s | e :: evs => match rstep e s with Some s => rrun evs s | None => None end end.
Fixpoint srun (evs : list event) (s : sst) : sst := match evs with [] => s | e :: evs => srun evs (sstep e s) end.
