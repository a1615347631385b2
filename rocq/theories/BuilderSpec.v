(* What dom/builder.py promises, written without reference to its loops: the shorthand grammar
   tag[name][name=value][name="value"]..., the shape of the node built, and the flattening of nested children. *)
From Coq Require Import NArith List Bool String.
From Verif Require Import Str SerializerModel BuilderModel.
Import ListNotations.
Open Scope list_scope. Open Scope N_scope.

(* characters that end a name in HTML: tab, newline, form feed, return, space, slash, greater-than *)
Definition ends_name (c : N) : Prop := In c [9; 10; 12; 13; 32; 47; 62].

Definition good_tag (t : str) : Prop :=
  (exists c r, t = c :: r /\ (65 <= c <= 90 \/ 97 <= c <= 122)) /\
  (forall c, In c t -> ~ ends_name c /\ is_space c = false /\ c <> 91).

Definition good_attr (k : str) : Prop := k <> [] /\ forall c, In c k -> ~ ends_name c /\ c <> 61.
(* what is really taken: one final newline goes unnoticed (see C63_newline_refuted) *)
Definition taken_attr (k : str) : Prop := good_attr k \/ exists k', k = k' ++ [10] /\ good_attr k'.

(* one bracket *)
Inductive bracket : str * option str -> str -> Prop :=
| br_bare k : taken_attr k -> ~ In 93 k -> bracket (k, None) ([91] ++ k ++ [93])
| br_plain k v : taken_attr k -> ~ In 93 k -> ~ In 91 v -> ~ In 93 v ->
    (forall q r, v = q :: r -> q <> 34 /\ q <> 39) ->
    bracket (k, Some v) ([91] ++ k ++ [61] ++ v ++ [93])
| br_quoted k q v : taken_attr k -> ~ In 93 k -> q = 34 \/ q = 39 -> ~ In q v -> ~ In 92 v ->
    bracket (k, Some v) ([91] ++ k ++ [61; q] ++ v ++ [q; 93]).

(* the whole shorthand *)
Definition shorthand (tag : str) (attrs : list (str * option str)) (s : str) : Prop :=
  good_tag tag /\ NoDup (map fst attrs) /\
  exists parts, Forall2 bracket attrs parts /\ s = tag ++ List.concat parts.

(* children: nested iterables are flattened in reading order; None and False vanish; strings become text nodes *)
Inductive flat : child -> list node -> Prop :=
| fl_none : flat CNone []
| fl_false : flat (CBool false) []
| fl_str s : flat (CStr s) [NText s]
| fl_node n : flat (CNode n) [n]
| fl_frag l : flat (CFragment l) l
| fl_iter l ls : flats l ls -> flat (CIter l) ls
with flats : list child -> list node -> Prop :=
| fls_nil : flats [] []
| fls_cons c l a b : flat c a -> flats l b -> flats (c :: l) (a ++ b).

Definition names_ns (n : ns_arg) (ns : str) : Prop :=
  match n with
  | NsNone => ns = u "html"
  | NsStr s => (lower s = u "html" /\ ns = u "html") \/ (lower s = u "svg" /\ ns = u "svg") \/
               ((lower s = u "math" \/ lower s = u "mathml") /\ ns = u "math")
  | NsOther => False
  end.

(* the mapping given explicitly *)
Definition gives (l : list (key * option str)) (attrs : list (str * option str)) : Prop :=
  Forall2 (fun kv a => fst kv = KStr (fst a) /\ snd kv = snd a /\ taken_attr (fst a)) l attrs.

Definition mapping_of (a : attrs_arg) : list (key * option str) := match a with AMapping l => l | _ => [] end.
Definition children_of (a : attrs_arg) (l : list child) : list child := match a with AChild c => c :: l | _ => l end.

(* the nodes a program can build with the four functions *)
Inductive built : node -> Prop :=
| bu_text s n : text s = ROk n -> built n
| bu_comment s n : comment s = ROk n -> built n
| bu_doctype a b c n : doctype_node a b c = ROk n -> built n
| bu_element name attrs children ns n : built_children (children_of attrs children) ->
    element name attrs children ns = ROk n -> built n
with built_child : child -> Prop :=
| bc_node n : built n -> built_child (CNode n)
| bc_frag l : built_nodes l -> built_child (CFragment l)
| bc_iter l : built_children l -> built_child (CIter l)
| bc_none : built_child CNone
| bc_bool b : built_child (CBool b)
| bc_str s : built_child (CStr s)
with built_children : list child -> Prop :=
| bcs_nil : built_children []
| bcs_cons c l : built_child c -> built_children l -> built_children (c :: l)
with built_nodes : list node -> Prop :=
| bns_nil : built_nodes []
| bns_cons n l : built n -> built_nodes l -> built_nodes (n :: l).

(* a name the doctype can be written with *)
Definition doctype_name (t : str) : Prop :=
  (exists c r, t = c :: r /\ (65 <= c <= 90 \/ 97 <= c <= 122)) /\ (forall c, In c t -> ~ ends_name c).
Definition taken_doctype_name (t : str) : Prop := t = [] \/ doctype_name t \/ exists t', t = t' ++ [10] /\ doctype_name t'.
