(* MODEL of the lazy reconstruction of the active formatting elements: parser/engine.py:5713-5742 _reconstruct_active_formatting, the flag
   _active_formatting_dirty with 5914-5916 and 5926-5934, and the places that change the stack, the list or the flag, as events.
   Simplifications: elements are numbered; where an element or a text goes (foster parenting, template contents) is left to the operation, which names
   the current node; the index of live names and the buckets are the subject of C53; tag spans and metadata are left out.  Which start tags reconstruct
   is a parameter of the event (EOpen), the same for the code and the specification. *)
From Coq Require Import List Arith Bool String.
From Verif Require Import Str.
From Verif Require Import AaaModel.
Import ListNotations.
Open Scope string_scope. Open Scope list_scope. Open Scope nat_scope.

Inductive rop :=
| Text (parent : nat)                                  (* a text node for the current node *)
| Create (x : nat) (name : str) (token : nat) (parent : nat). (* an element, for the current node, then pushed *)
Record rst := RSt { stk : list nat; act : list slot; dirty : bool; fresh : nat; done : list rop }.

Definition top (l : list nat) : nat := last l 0.
Definition open_node (x : nat) (l : list nat) : bool := existsb (Nat.eqb x) l.

(* engine.py:5715-5724: from the end, the first slot that is the marker or live *)
Fixpoint last_index (n : nat) (l : list slot) : option nat :=
  match n with
  | O => None
  | S i => match nth_error l i with
           | Some (Some e) => if e_live e then Some i else last_index i l
           | Some None => Some i
           | None => None
           end
  end.
(* engine.py:5725-5731: idx + 1, after `while idx >= 0: ... idx -= 1`; the argument is idx + 1 *)
Fixpoint rewind (n : nat) (l : list slot) (stack : list nat) : nat :=
  match n with
  | O => O
  | S i => match nth_error l i with
           | Some None => S i
           | Some (Some e) => if e_live e && open_node (e_node e) stack then S i else rewind i l stack
           | None => rewind i l stack
           end
  end.
(* engine.py:5733-5741: `while idx < len(active)`; [k] bounds the iterations.  A marker has no attribute `active` (it would raise): by then there is none *)
Fixpoint advance (k idx : nat) (s : rst) : option rst :=
  match nth_error (act s) idx with
  | None => Some s
  | Some sl =>
    match k with
    | O => None
    | S k =>
      match sl with
      | None => None
      | Some e =>
        if negb (e_live e) then advance k (S idx) s
        else
          let x := fresh s in
          advance k (S idx) (RSt (stk s ++ [x]) (put idx (Some (Entry x (e_name e) (e_token e) true)) (act s)) (dirty s) (S x)
                                 (done s ++ [Create x (e_name e) (e_token e) (top (stk s))]))
      end
    end
  end.
Definition set_dirty (b : bool) (s : rst) : rst := RSt (stk s) (act s) b (fresh s) (done s).
(* engine.py:5713-5742 _reconstruct_active_formatting *)
Definition reconstruct (s : rst) : option rst :=
  match last_index (List.length (act s)) (act s) with
  | None => Some (set_dirty false s)
  | Some i =>
    match nth_error (act s) i with
    | Some None | None => Some (set_dirty false s)
    | Some (Some _) =>
      match advance (List.length (act s)) (rewind (S i) (act s) (stk s)) s with
      | None => None
      | Some s => Some (set_dirty false s)
      end
    end
  end.
(* engine.py:5914-5916 _mark_active_formatting_dirty *)
Definition mark (s : rst) : rst := match act s with [] => s | _ => set_dirty true s end.
(* engine.py:5926-5934 _refresh_active_formatting_dirty *)
Definition refresh (s : rst) : rst :=
  match act s with
  | [] => set_dirty false s
  | _ => set_dirty (existsb (fun sl => match sl with Some e => e_live e && negb (open_node (e_node e) (stk s)) | None => false end) (act s)) s
  end.
(* engine.py:5222-5236 _clear_active_formatting_to_marker, without the refresh *)
Fixpoint clear_back (back : list slot) : list slot := match back with [] => [] | None :: t => t | Some _ :: t => clear_back t end.
Definition clear (s : rst) : rst := RSt (stk s) (rev (clear_back (rev (act s)))) (dirty s) (fresh s) (done s).

Inductive event :=
| EText (in_caption : bool)     (* 2298-2305: text for the current node; whether that is a caption *)
| EOpen (recon : bool)          (* 3545, 4078-4100: start tag of an element that is not a formatting element *)
| EFormat (name : str) (token : nat)  (* 5566-5616 (3462-3474 skips the test when the flag is clear) *)
| ENoah (x : nat)               (* 5575-5577: the entry of node x is retired *)
| EClose (k : nat)              (* 5035, 5051, ...: mark; del stack[k:] *)
| EPlainPop                     (* 2287-2296 and others: the current node, which is in no live entry, is popped *)
| EMarker                       (* 5218-5220 *)
| EClear (k : nat)              (* 2772-2780, 3043-3052, 3093-3102, 5004-5006, 5213-5215: mark; clear with refresh; and only then del stack[k:] *)
| ETemplateEnd (k : nat)        (* 1957-1971: del stack[k:]; clear, refresh only when the flag is set *)
| EEnd (subject : str)          (* 5753-5767, 5779-5784: formatting end tag, the last entry of that name is the current node *)
| EAdopt (used : nat) (stack' : list nat) (act' : list slot). (* 5785-5912: the rest of the adoption agency algorithm changed both, with new elements; refresh *)

Definition push (x : nat) (s : rst) : rst := RSt (stk s ++ [x]) (act s) (dirty s) (S x) (done s).
Definition cut (k : nat) (s : rst) : rst := RSt (firstn k (stk s)) (act s) (dirty s) (fresh s) (done s).
Definition note (o : rop) (s : rst) : rst := RSt (stk s) (act s) (dirty s) (fresh s) (done s ++ [o]).
Definition if_dirty (s : rst) : option rst := if dirty s then reconstruct s else Some s.

Definition rstep (ev : event) (s : rst) : option rst :=
  match ev with
  | EText in_caption =>
    match (if in_caption then Some s else if_dirty s) with
    | None => None
    | Some s => Some (note (Text (top (stk s))) s)
    end
  | EOpen recon => match (if recon then if_dirty s else Some s) with None => None | Some s => Some (push (fresh s) (note (Create (fresh s) [] 0 (top (stk s))) s)) end
  | EFormat name token =>
    match if_dirty s with
    | None => None
    | Some s =>
      let x := fresh s in
      let s := push x (note (Create x name token (top (stk s))) s) in
      Some (RSt (stk s) (act s ++ [Some (Entry x name token true)]) (dirty s) (fresh s) (done s))
    end
  | ENoah x => match find_node x (List.length (act s)) (act s) with
               | Some i => Some (RSt (stk s) (retire i (act s)) (dirty s) (fresh s) (done s))
               | None => None
               end
  | EClose k => Some (cut k (mark s))
  | EPlainPop => Some (cut (List.length (stk s) - 1) s)
  | EMarker => Some (RSt (stk s) (act s ++ [None]) (dirty s) (fresh s) (done s))
  | EClear k => Some (cut k (refresh (clear (mark s))))
  | ETemplateEnd k => let s := cut k s in if dirty s then Some (refresh (clear s)) else Some (clear s)
  | EEnd subject => match find_name subject (List.length (act s)) (act s) with
                    | Some i => Some (RSt (removelast (stk s)) (retire i (act s)) (dirty s) (fresh s) (done s))
                    | None => None
                    end
  | EAdopt used st ac => Some (refresh (RSt st ac (dirty s) (fresh s + used) (done s)))
  end.
