(* SPECIFICATION: the text of a tree.  Nothing of TextModel is used. *)
From Verif Require Import Str HtmlTokSpec RawTextSpec SerializerModel SerTreeSpec.
Open Scope list_scope. Open Scope N_scope.

(* [texts n l]: the data of the text nodes in n, in document order (template contents after the children) *)
Inductive texts : node -> list str -> Prop :=
| t_text d : texts (NText d) [d]
| t_comment d : texts (NComment d) []
| t_pi d : texts (NPI d) []
| t_doctype d : texts (NDoctype d) []
| t_document cs l : texts_all cs l -> texts (NDocument cs) l
| t_element name ns attrs cs l : texts_all cs l -> texts (NElem name ns attrs cs None) l
| t_template name ns attrs cs contents l l' : texts_all cs l -> texts_all contents l' -> texts (NElem name ns attrs cs (Some contents)) (l ++ l')
with texts_all : list node -> list str -> Prop :=
| ta_nil : texts_all [] []
| ta_cons n ns l l' : texts n l -> texts_all ns l' -> texts_all (n :: ns) (l ++ l').

(* The same with line boundaries: block elements begin and end one, br is one. *)
Inductive item := Words (d : str) | Boundary.
Definition is_block (name : str) : Prop := In name (map u
  ["address"; "article"; "aside"; "blockquote"; "body"; "dd"; "div"; "dl"; "dt"; "fieldset"; "figcaption"; "figure"; "footer";
   "form"; "h1"; "h2"; "h3"; "h4"; "h5"; "h6"; "header"; "hr"; "html"; "li"; "main"; "nav"; "ol"; "p"; "pre"; "section";
   "table"; "tbody"; "td"; "tfoot"; "th"; "thead"; "tr"; "ul"]%string).
Definition around (name : str) (l : list item) (r : list item) : Prop :=
  (name = u "br" /\ r = [Boundary]) \/
  (name <> u "br" /\ is_block name /\ r = Boundary :: l ++ [Boundary]) \/
  (name <> u "br" /\ ~ is_block name /\ r = l).
Inductive lines : node -> list item -> Prop :=
| l_text d : lines (NText d) [Words d]
| l_comment d : lines (NComment d) []
| l_pi d : lines (NPI d) []
| l_doctype d : lines (NDoctype d) []
| l_document cs l : lines_all cs l -> lines (NDocument cs) l
| l_element name ns attrs cs l r : lines_all cs l -> around name l r -> lines (NElem name ns attrs cs None) r
| l_template name ns attrs cs contents l l' r : lines_all cs l -> lines_all contents l' -> around name (l ++ l') r ->
    lines (NElem name ns attrs cs (Some contents)) r
with lines_all : list node -> list item -> Prop :=
| la_nil : lines_all [] []
| la_cons n ns l l' : lines n l -> lines_all ns l' -> lines_all (n :: ns) (l ++ l').

(* the texts between boundaries *)
Fixpoint paragraphs (l : list item) : list (list str) :=
  match l with
  | [] => [[]]
  | Boundary :: t => [] :: paragraphs t
  | Words d :: t => match paragraphs t with p :: ps => (d :: p) :: ps | [] => [[d]] end
  end.

Definition nonempty {A} (l : list (list A)) : list (list A) := filter (fun x => match x with [] => false | _ => true end) l.

(* the pieces of one paragraph: stripped if asked, empty ones left out *)
Definition pieces (strip_it : bool) (l : list str) : list str := nonempty (if strip_it then map strip l else l).
