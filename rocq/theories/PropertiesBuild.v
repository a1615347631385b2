(* PROPERTY C63: the node builders (dom/builder.py) *)
From Coq Require Import NArith List Bool String.
From Verif Require Import Str StrFacts SerializerModel SerTreeSpec SerFinal HtmlTokSpec SerTreeProofs PropertiesSer BuilderModel BuilderSpec BuilderProofs.
Import ListNotations.
Open Scope list_scope. Open Scope N_scope.

(* element() returns exactly for a name written in the shorthand grammar, a known namespace, a mapping whose names can be
   serialized and do not repeat the shorthand, and children that flatten; the node is the one described.  Anything else
   raises (C63_element_total). *)
Theorem C63_element : forall name arg children nsa n,
  element name arg children nsa = ROk n <->
  exists tag ns short explicit kids,
    shorthand tag short name /\ names_ns nsa ns /\ gives (mapping_of arg) explicit /\
    (forall k, In k (map fst short) -> ~ In k (map fst explicit)) /\
    flats (children_of arg children) kids /\
    n = if str_eqb tag (u "template") && str_eqb ns (u "html")
        then NElem tag (Some ns) (short ++ explicit) [] (Some kids)
        else NElem tag (Some ns) (short ++ explicit) kids None.
Proof. exact element_iff. Qed.
Print Assumptions C63_element.
Theorem C63_element_total : forall name arg children nsa, element name arg children nsa <> RFuel.
Proof. exact element_total. Qed.
Print Assumptions C63_element_total.

(* doctype() takes exactly the names a doctype can be written with (and, as above, one final newline) *)
Theorem C63_doctype : forall name pub sys n, doctype_node name pub sys = ROk n <->
  taken_doctype_name name /\ n = NDoctype (DObj (Doctype_ (Some name) pub sys)).
Proof. exact doctype_iff. Qed.
Print Assumptions C63_doctype.

(* the shorthand has one reading *)
Theorem C63_shorthand_one_reading : forall s t a t' a', shorthand t a s -> shorthand t' a' s -> t = t' /\ a = a'.
Proof. intros s t a t' a' H H'. apply parse_complete in H, H'. rewrite H in H'. injection H' as <- <-. auto. Qed.
Print Assumptions C63_shorthand_one_reading.

(* nested children: each accepted list has one flattening *)
Theorem C63_flatten_one_reading : forall l a b, flats l a -> flats l b -> a = b.
Proof. intros l a b H H'. apply flatten_iff in H as (x & E & ->), H' as (y & E' & ->). rewrite E in E'. injection E' as <-. reflexivity. Qed.
Print Assumptions C63_flatten_one_reading.

(* what was built can always be serialized: to_html never raises on it *)
Theorem C63_built_serializes : forall n p, built n -> exists html, to_html_compact n p = Ok html.
Proof.
  intros n p B. pose proof (C09_serializer_total n p) as T.
  assert (R : to_html_compact n p <> Raise).
  { unfold to_html_compact. apply compact_no_raise. intros m q [[= <- _]|[]]. now apply built_clean. }
  destruct (to_html_compact n p); [congruence|congruence|eauto].
Qed.
Print Assumptions C63_built_serializes.

(* the start tag written for a built element is read by an HTML parser as a start tag with this name and these attributes,
   and nothing else *)
Theorem C63_built_start_tag : forall name arg children nsa tag ns attrs kids tc o,
  element name arg children nsa = ROk (NElem tag ns attrs kids tc) ->
  exists s, serialize_start_tag o ns tag attrs = Some s /\
  forall sc last, exists kvs, Forall2 (attr_shown (minimize_boolean_attributes o)) attrs kvs /\
    forall rest, run sc O last Data (s ++ rest)
      = TStart (canon_name tag) (first_wins kvs) (use_trailing_solidus o && is_void o)
        :: run sc O (canon_name tag) (switch sc (canon_name tag)) rest.
Proof.
  intros name arg children nsa tag ns attrs kids tc o H.
  apply element_iff in H as (tag' & ns' & short & explicit & kids' & SH & _ & GI & _ & _ & E).
  destruct (shorthand_names _ _ _ SH) as [T A].
  assert (X : tag = tag' /\ attrs = short ++ explicit).
  { unfold node_made in E. destruct (_ && _); injection E as -> _ -> _ _; auto. }
  destruct X as [-> ->].
  destruct (start_tag_ok o ns tag' (short ++ explicit) T) as (s & Es).
  { intros kv I. apply in_app_or in I as [I|I]; [now apply A|]. apply taken_validates. clear -GI I. unfold gives in GI.
    induction GI as [|x y l r (_ & _ & H) F IH]; [destruct I|]. destruct I as [->|I]; auto. }
  exists s. split; [exact Es|]. exact (C03_start_tag_reads_as_itself o ns tag' _ s Es).
Qed.
Print Assumptions C63_built_start_tag.

(* ... but an attribute name that HTML cannot carry is accepted when it ends in a newline: two different names, one name read *)
Theorem C63_newline_refuted : exists name n s,
  element name ANone [] NsNone = ROk n /\ n = NElem (u "p") (Some (u "html")) [(u "id" ++ [10], Some (u "x")); (u "id", Some (u "y"))] [] None /\
  to_html_compact n None = Ok s /\ run false O [] Data s = [TStart (u "p") [(u "id", u "x")] false; TEnd (u "p")].
Proof.
  exists (u "p[id" ++ [10] ++ u "=x][id=y]"). eexists. eexists.
  split; [vm_compute; reflexivity|]. split; [vm_compute; reflexivity|]. split; [vm_compute; reflexivity|]. vm_compute. reflexivity.
Qed.
Print Assumptions C63_newline_refuted.

Example C63_example : 
  element (u "a[href='/x?a=[1]'][data-n=3][hidden]") (AMapping [(KStr (u "title"), Some (u "a]b"))])
    [CStr (u "hi"); CNone; CIter [CBool false; CIter [CNode (NComment (u "c"))]; CFragment [NText (u "1"); NText (u "2")]]] (NsStr (u "HTML"))
  = ROk (NElem (u "a") (Some (u "html"))
      [(u "href", Some (u "/x?a=[1]")); (u "data-n", Some (u "3")); (u "hidden", None); (u "title", Some (u "a]b"))]
      [NText (u "hi"); NComment (u "c"); NText (u "1"); NText (u "2")] None).
Proof. vm_compute. reflexivity. Qed.
Example C63_example_errors :
  element (u "a b") ANone [] NsNone = RErr ValueError /\ element (u "a[x") ANone [] NsNone = RErr ValueError /\
  element (u "a[x][x=1]") ANone [] NsNone = RErr ValueError /\ element (u "a[x]b") ANone [] NsNone = RErr ValueError /\
  element (u "a[x=""1\""]") ANone [] NsNone = RErr ValueError /\ element (u "#text") ANone [] NsNone = RErr ValueError /\
  element (u "a") (AChild (CBool true)) [] NsNone = RErr TypeError /\
  element (u "a[x]") (AMapping [(KStr (u "x"), None)]) [] NsNone = RErr ValueError.
Proof. vm_compute. repeat split. Qed.
Example C63_example_built : exists n, element (u "template[id=t]") (AChild (CStr (u "a"))) [CNode (NComment (u "c"))] NsNone = ROk n /\ built n.
Proof.
  eexists. split; [vm_compute; reflexivity|].
  eapply (bu_element (u "template[id=t]") (AChild (CStr (u "a"))) [CNode (NComment (u "c"))] NsNone); [|vm_compute; reflexivity].
  repeat constructor. apply (bu_comment (u "c")). reflexivity.
Qed.
