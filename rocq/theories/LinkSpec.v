(* SPECIFICATION for linkify (C36, C37) *)
From Verif Require Import Str SerializerModel.
Open Scope N_scope.

(* x is text[start : start+len(x)] *)
Definition at_offset (text : str) (start : nat) (x : str) : Prop := exists a b, text = a ++ x ++ b /\ List.length a = start.
(* href has one of these schemes, letters in either case *)
Definition safe_href (h : str) : Prop :=
  exists p a rest, In p [u "http://"; u "https://"; u "ftp://"; u "mailto:"; u "//"] /\ h = a ++ rest /\ alow a = p.
(* the text of a tree, template contents included (after the children) *)
Fixpoint text_of (n : node) : str :=
  match n with
  | NText d => d
  | NDocument c => flat_map text_of c
  | NElem _ _ _ c tc => flat_map text_of c ++ match tc with Some l => flat_map text_of l | None => [] end
  | _ => []
  end.
(* what may replace a text node: text, and links with one safe href around plain text *)
Inductive piece : node -> Prop :=
| P_text t : piece (NText t)
| P_link h t ns : safe_href h -> piece (NElem (u "a") ns [(u "href", Some h)] [NText t] None).
(* linkified tags n out: out is n with nothing changed but text nodes outside the elements named in tags, each replaced by pieces with the same text in total *)
Inductive linkified (tags : list str) : node -> list node -> Prop :=
| L_text d out : flat_map text_of out = d -> Forall piece out -> linkified tags (NText d) out
| L_comment d : linkified tags (NComment d) [NComment d]
| L_pi d : linkified tags (NPI d) [NPI d]
| L_doctype d : linkified tags (NDoctype d) [NDoctype d]
| L_doc c cs : Forall2 (linkified tags) c cs -> linkified tags (NDocument c) [NDocument (List.concat cs)]
| L_skip name ns attrs c tc : in_strs (lower name) tags = true -> linkified tags (NElem name ns attrs c tc) [NElem name ns attrs c tc]
| L_elem name ns attrs c cs : in_strs (lower name) tags = false -> Forall2 (linkified tags) c cs ->
    linkified tags (NElem name ns attrs c None) [NElem name ns attrs (List.concat cs) None]
| L_template name ns attrs c tc cs ts : in_strs (lower name) tags = false -> Forall2 (linkified tags) c cs -> Forall2 (linkified tags) tc ts ->
    linkified tags (NElem name ns attrs c (Some tc)) [NElem name ns attrs (List.concat cs) (Some (List.concat ts))].
(* the depth of a tree *)
Fixpoint depth (n : node) : nat :=
  match n with
  | NDocument c => S (list_max (map depth c))
  | NElem _ _ _ c tc => S (Nat.max (list_max (map depth c)) (match tc with Some l => list_max (map depth l) | None => O end))
  | _ => O
  end.
(* s begins with p, ASCII letters in either case *)
Definition begins_ci (p s : str) : Prop := exists a rest, s = a ++ rest /\ alow a = p.
(* four dot-separated groups of one to three digits (any script), each at most 255 *)
Definition octet (val : str -> option N) (p : str) : Prop := (1 <= List.length p <= 3)%nat /\ exists v, val p = Some v /\ v <= 255.
Definition dotted_quad (val : str -> option N) (h : str) : Prop := exists a b c d, h = a ++ u "." ++ b ++ u "." ++ c ++ u "." ++ d /\ octet val a /\ octet val b /\ octet val c /\ octet val d.
(* h is base.tld, possibly with white space and dots around it *)
Definition has_tld (ok : str -> Prop) (h : str) : Prop := exists pre base tld post, h = pre ++ base ++ u "." ++ tld ++ post /\ ok tld /\ ~ In 46 tld /\ tld <> [].
(* a well-formed authority [user@]host[:port]; a host in brackets is not looked into *)
Definition digits_value (s : str) : N := fold_left (fun a c => a * 10 + (c - 48)) s 0.
Definition good_authority (s : str) : Prop :=
  exists user host port, s = user ++ host ++ port /\ (user = [] \/ exists w, user = w ++ u "@") /\ host <> [] /\ ~ In 95 host /\
    (forall c r, host = c :: r -> c <> 45 /\ c <> 46) /\ (forall c w, host = w ++ [c] -> c <> 45 /\ c <> 46) /\
    (port = [] \/ exists ds, port = u ":" ++ ds /\ Forall (fun c => 48 <= c <= 57) ds /\ (List.length ds <= 5)%nat /\ digits_value ds <= 65535).
