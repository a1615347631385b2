(* MODEL of the adoption agency algorithm: parser/engine.py:5744-5912 with its helpers 5629-5647, 5657-5682 and 5918-5924.
   The state is the stack of open elements, the list of active formatting elements with its lazily retired entries, and the operations on the tree in
   the order in which they are made.  Simplifications: the index of the live names (5630-5632) and the buckets of equal entries are the subject of C53 and
   left out; the tag spans, the dirty flag and the parser-only ancestors of a sanitizing parse (5862-5868) are left out; the foster parenting decision
   is one operation (Place).  None stands for a Python exception. *)
From Coq Require Import List Arith Bool String.
From Verif Require Import Str.
From Verif Require Import FinishModel.
Import ListNotations.
Open Scope string_scope. Open Scope list_scope. Open Scope nat_scope.

(* the name of an element and its namespace *)
Inductive space := Html | Svg | Math.
Definition tag := (str * space)%type.
Inductive op :=
| New (x : nat) (name : str) (token : nat) (* engine.py:5932-5939 _clone_formatting_entry *)
| Move (child parent : nat) (* 5853-5854 _detach_node, _append_moved_node *)
| Place (child ancestor : nat) (* 5869-5875 at the appropriate place for inserting a node *)
| MoveAll (from to : nat) (* 5880-5884 *)
| Append (parent child : nat). (* 5886 *)
(* engine.py:697-704 _FormattingEntry.  token: what it was created for (name and attributes) *)
Record entry := Entry { e_node : nat; e_name : str; e_token : nat; e_live : bool }.
(* None: the marker *)
Notation slot := (option entry).
Record st := St { stack : list nat; active : list slot; tags : nat -> tag; next : nat; ops : list op }.

Definition last_opt {A} (l : list A) : option A := nth_error l (List.length l - 1).
(* engine.py:5629-5640 _find_active_formatting_index: from the end to the last marker *)
Fixpoint find_name (subject : str) (i : nat) (l : list slot) : option nat :=
  match i with
  | O => None
  | S i => match nth_error l i with
           | None | Some None => None
           | Some (Some e) => if e_live e && str_eqb (e_name e) subject then Some i else find_name subject i l
           end
  end.
(* engine.py:5642-5647 _find_active_formatting_index_by_node *)
Fixpoint find_node (x : nat) (i : nat) (l : list slot) : option nat :=
  match i with
  | O => None
  | S i => match nth_error l i with
           | Some (Some e) => if e_live e && (e_node e =? x) then Some i else find_node x i l
           | _ => find_node x i l
           end
  end.
Fixpoint put {A} (i : nat) (v : A) (l : list A) : list A := match l, i with [], _ => [] | _ :: t, O => v :: t | x :: t, S i => x :: put i v t end.
Definition insert {A} (i : nat) (v : A) (l : list A) : list A := firstn i l ++ v :: skipn i l.
Definition delete {A} (i : nat) (l : list A) : list A := firstn i l ++ skipn (S i) l.
(* engine.py:5657-5682 _retire_active_formatting_entry, for the entry at index i *)
Definition retire (i : nat) (l : list slot) : list slot :=
  if S i =? List.length l then removelast l
  else match nth_error l i with Some (Some e) => put i (Some (Entry (e_node e) (e_name e) (e_token e) false)) l | _ => l end.

Section aaa.
Variables special boundary : tag -> bool.
(* engine.py:5918-5924 _has_node_in_scope: target_index >= the last index of a boundary (871-883 leaves out index 0, which makes no difference to the comparison) *)
Definition last_boundary (s : st) : option nat :=
  (fix go i := match i with O => None | S i => match nth_error (stack s) i with Some x => if boundary (tags s x) then Some i else go i | None => go i end end) (List.length (stack s)).
Definition in_scope (target : nat) (s : st) : bool :=
  match target with O => false | _ => match last_boundary s with None => true | Some b => b <=? target end end.
(* engine.py:5796-5802 *)
Fixpoint furthest (s : st) (l : list nat) (i : nat) : option (nat * nat) := match l with [] => None | x :: t => if special (tags s x) then Some (x, i) else furthest s t (S i) end.

(* engine.py:5818-5855 the inner loop; i is node_index, counter is inner_counter *)
Fixpoint inner (fe fb : nat) (i counter bookmark last_node : nat) (s : st) : option (nat * nat * st) :=
  match i with
  | O => None
  | S i =>
    let counter := S counter in
    match nth_error (stack s) i with
    | None => None
    | Some node =>
      if node =? fe then Some (bookmark, last_node, s)
      else
        let found := find_node node (List.length (active s)) (active s) in
        match found, 3 <? counter with
        | Some j, true =>
          inner fe fb i counter (if j <? bookmark then bookmark - 1 else bookmark) last_node (St (delete i (stack s)) (retire j (active s)) (tags s) (next s) (ops s))
        | None, _ => inner fe fb i counter bookmark last_node (St (delete i (stack s)) (active s) (tags s) (next s) (ops s))
        | Some j, false =>
          match nth_error (active s) j with
          | Some (Some e) =>
            let new := next s in
            let bookmark := if last_node =? fb then S j else bookmark in
            inner fe fb i counter bookmark new
              (St (put i new (stack s)) (put j (Some (Entry new (e_name e) (e_token e) (e_live e))) (active s)) (upd (tags s) new (e_name e, Html)) (S new)
                  (ops s ++ [New new (e_name e) (e_token e); Move last_node new]))
          | _ => None
          end
        end
    end
  end.
(* engine.py:5767-5912 the outer loop *)
Fixpoint rounds (n : nat) (subject : str) (s : st) : option st :=
  match n with
  | O => Some s
  | S n =>
    match find_name subject (List.length (active s)) (active s) with
    | None =>
      match last_opt (stack s) with
      | Some x => if str_eqb (fst (tags s x)) subject then Some (St (removelast (stack s)) (active s) (tags s) (next s) (ops s)) else Some s
      | None => Some s
      end
    | Some f =>
      match nth_error (active s) f with
      | Some (Some e) =>
        let fe := e_node e in
        if match last_opt (stack s) with Some x => x =? fe | None => false end then Some (St (removelast (stack s)) (retire f (active s)) (tags s) (next s) (ops s))
        else
          match index_of fe (stack s) with
          | None => Some (St (stack s) (retire f (active s)) (tags s) (next s) (ops s))
          | Some fi =>
            if negb (in_scope fi s) then Some s
            else
              match furthest s (skipn (S fi) (stack s)) (S fi) with
              | None => Some (St (firstn fi (stack s)) (retire f (active s)) (tags s) (next s) (ops s))
              | Some (fb, bi) =>
                match inner fe fb bi 0 (S f) fb s with
                | None => None
                | Some (bookmark, last_node, s) =>
                  match nth_error (stack s) (fi - 1) with
                  | None => None
                  | Some ancestor =>
                    let new := next s in
                    let act := insert (bookmark - 1) (Some (Entry new (e_name e) (e_token e) true)) (retire f (active s)) in
                    match index_of fe (stack s) with
                    | None => None
                    | Some k =>
                      let stk := delete k (stack s) in
                      match index_of fb stk with
                      | None => None
                      | Some k =>
                        rounds n subject (St (insert (S k) new stk) act (upd (tags s) new (e_name e, Html)) (S new)
                          (ops s ++ [Place last_node ancestor; New new (e_name e) (e_token e); MoveAll fb new; Append fb new]))
                      end
                    end
                  end
                end
              end
          end
      | _ => None
      end
    end
  end.
(* engine.py:5744-5766 *)
Definition adoption_agency (subject : str) (s : st) : option st :=
  let shortcut := match last_opt (active s), last_opt (stack s) with
                  | Some (Some e), Some x => e_live e && str_eqb (e_name e) subject && (x =? e_node e)
                  | _, _ => false
                  end in
  if shortcut then Some (St (removelast (stack s)) (retire (List.length (active s) - 1) (active s)) (tags s) (next s) (ops s))
  else rounds 8 subject s.
End aaa.

(* core/constants.py:273-357 SPECIAL_ELEMENTS *)
Definition special_names : list str := map u ["address"; "applet"; "area"; "article"; "aside"; "base"; "basefont"; "bgsound"; "blockquote"; "body"; "br"; "button"; "caption"; "center"; "col"; "colgroup"; "dd"; "details"; "dialog"; "dir"; "div"; "dl"; "dt"; "embed"; "fieldset"; "figcaption"; "figure"; "footer"; "form"; "frame"; "frameset"; "h1"; "h2"; "h3"; "h4"; "h5"; "h6"; "head"; "header"; "hgroup"; "hr"; "html"; "iframe"; "img"; "input"; "keygen"; "li"; "link"; "listing"; "main"; "marquee"; "menu"; "meta"; "nav"; "noembed"; "noframes"; "noscript"; "object"; "ol"; "p"; "param"; "plaintext"; "pre"; "script"; "search"; "section"; "select"; "source"; "style"; "summary"; "table"; "tbody"; "td"; "template"; "textarea"; "tfoot"; "th"; "thead"; "title"; "tr"; "track"; "ul"; "wbr"]%string.
(* engine.py:5798 the name is not dialog and 5944-5945 _is_special_node *)
Definition code_special (t : tag) : bool :=
  negb (str_eqb (fst t) (u "dialog")) && match snd t with Html => existsb (str_eqb (fst t)) special_names | _ => false end.
(* core/constants.py:361-371 DEFAULT_SCOPE_TERMINATORS, engine.py:90 and 874: by name, in any namespace *)
Definition code_boundary (t : tag) : bool := existsb (str_eqb (fst t)) (map u ["applet"; "caption"; "html"; "table"; "td"; "th"; "marquee"; "object"; "template"]%string).
