(* MODEL: what is done with security findings (sanitizer/policy.py:23-107 UnsafeHandler) and the sanitize_dom entry point
   (sanitizer/dom.py:94-114). *)
From Verif Require Import Str UrlModel CssModel SanModel.
Open Scope N_scope.

(* core/types.py:25-56 ParseError; the fields used here *)
Record parse_error := PErr { pe_code : str; pe_line : option N; pe_col : option N; pe_category : str; pe_message : str }.
(* policy.py:23-38: the state of a handler: an optional external sink, and its own error list *)
Record handler := Handler { h_sink : option (list parse_error); h_errors : option (list parse_error) }.
Definition is_security (e : parse_error) : bool := str_eqb (pe_category e) (u "security").
(* policy.py:40-59 UnsafeHandler.reset.  (In place: the sink keeps its identity.) *)
Definition reset (m : unsafe_mode) (h : handler) : handler :=
  match m with
  | MCollect => match h_sink h with
                | None => Handler None (Some [])
                | Some l => Handler (Some (filter (fun e => negb (is_security e)) l)) (h_errors h)
                end
  | _ => Handler (h_sink h) None
  end.
(* policy.py:70-75: the sort key *)
Definition sort_key (e : parse_error) : N * N :=
  ((match pe_line e with Some n => n | None => 1000000000 end), (match pe_col e with Some n => n | None => 1000000000 end)).
Definition key_leb (a b : N * N) : bool := (fst a <? fst b) || ((fst a =? fst b) && (snd a <=? snd b)).
(* list.sort(key=...): a stable sort.  Any stable sort gives the same list; this is insertion sort. *)
Fixpoint insert_err (e : parse_error) (l : list parse_error) : list parse_error :=
  match l with
  | [] => [e]
  | x :: r => if key_leb (sort_key e) (sort_key x) then e :: l else x :: insert_err e r
  end.
Definition sort_errs (l : list parse_error) : list parse_error := fold_right insert_err [] l.
(* policy.py:61-76 UnsafeHandler.collected *)
Definition collected (h : handler) : list parse_error :=
  match h_sink h with
  | Some l => sort_errs (filter is_security l)
  | None => match h_errors h with Some l => sort_errs l | None => [] end
  end.
(* policy.py:98-105 the error made of a finding *)
Definition error_of (f : finding) : parse_error := PErr (u "unsafe-html") (f_line f) (f_col f) (u "security") (f_msg f).
(* policy.py:78-107 UnsafeHandler.handle; inr: UnsafeHtmlError(msg) is raised *)
Definition handle (m : unsafe_mode) (h : handler) (f : finding) : handler + str :=
  match m with
  | MStrip => inl h
  | MRaise => inr (f_msg f)
  | MCollect =>
    inl match h_sink h with
        | Some l => Handler (Some (l ++ [error_of f])%list) (h_errors h)
        | None => Handler None (Some (match h_errors h with Some l => l | None => [] end ++ [error_of f])%list)
        end
  end.
(* the findings of a run are handled one after the other; an exception ends the run *)
Fixpoint handle_all (m : unsafe_mode) (h : handler) (fs : list finding) : handler + str :=
  match fs with
  | [] => inl h
  | f :: r => match handle m h f with inl h' => handle_all m h' r | inr e => inr e end
  end.
(* What sanitize_dom does: returns a tree; raises UnsafeHtmlError; or raises something else (an exception of urllib, or ValueError for an
   invalid name: in "raise" mode a finding reported before such an exception would raise UnsafeHtmlError instead). *)
Inductive outcome := Returned (tree : node) (h : handler) | Unsafe (msg : str) | OtherError | Fuel.
(* dom.py:94-114 sanitize_dom with an explicit policy and errors=None.  In "raise" mode the code stops at the first finding; here the
   rest of the run is computed and then ignored. *)
Definition sanitize_dom (py : urllib) (p : policy) (h : handler) (n : node) : outcome :=
  let h0 := match unsafe_handling p with MCollect => reset MCollect h | _ => h end in
  match apply_policy_to_root py p n with
  | Ok out fs => match handle_all (unsafe_handling p) h0 fs with inl h1 => Returned out h1 | inr msg => Unsafe msg end
  | Exc => OtherError
  | OutOfFuel => Fuel
  end.
(* dataclasses.replace(policy, unsafe_handling=m) *)
Definition with_mode (m : unsafe_mode) (p : policy) : policy :=
  Policy (allowed_tags p) (allowed_attributes p) (pol_url p) (pol_drop_comments p) (pol_drop_doctype p) (drop_content_tags p) (allowed_css p)
         (force_link_rel p) m (disallowed_tag_handling p) (pol_strip_invisible p).
