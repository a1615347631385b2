(* SPECIFICATION for the stream of events: what an event says, and what it means that the events are those of a text, piece by piece.
   Uses from the code only the decoding of character references (C27). *)
From Verif Require Import Str EntitiesModel HtmlTokSpec StreamModel.
Open Scope list_scope. Open Scope N_scope.

(* text events are compared character by character: where one ends and the next begins carries no meaning *)
Inductive item :=
| IChar (c : N)
| IStart (name : str) (attrs : list (str * str))
| IEnd (name : str)
| IComment (data : str)
| IDoctype (name public_id system_id : option str).
Definition items_of (e : event) : list item :=
  match e with
  | EStart n a => [IStart n a]
  | EEnd n => [IEnd n]
  | EText t => map IChar t
  | EComment d => [IComment d]
  | EDoctype a b c => [IDoctype a b c]
  end.
Definition items (l : list event) : list item := flat_map items_of l.

(* where a tag name ends: n holds none of the stops, and one of them comes next.  In start tags a carriage return does not end the name (stream.py
   takes it as part of the name; the standard reads it as a line feed), in end tags it does *)
Definition name_ends (stops : list N) (n r : str) : Prop :=
  (forall c, In c n -> ~ In c stops) /\ match r with c :: _ => In c stops | [] => False end.
Definition start_stops : list N := [9; 10; 12; 32; 47; 62].
Definition end_stops : list N := [9; 10; 12; 13; 32; 47; 62].
(* what may stand in an end tag after its name: quoted strings, and other characters but > *)
Inductive tail : str -> Prop :=
| TNil : tail []
| TChar c w : ~ In c [34; 39; 62] -> tail w -> tail (c :: w)
| TQuoted q v w : In q [34; 39] -> ~ In q v -> tail w -> tail (q :: v ++ q :: w).
(* no > ends the tag: the html ends inside it *)
Definition never_ends (s : str) : Prop := forall w r, s = w ++ 62 :: r -> ~ tail w.

Definition blank_by (p : N -> bool) (w : str) : Prop := forall c, In c w -> p c = true.
Definition no_quoted (s : str) : Prop := forall a q v r, blank_by is_space a -> In q [34; 39] -> ~ In q v -> s <> a ++ q :: v ++ q :: r.
(* what follows the name and white space: PUBLIC with one or two quoted identifiers, SYSTEM with one *)
Inductive identifiers : str -> option str -> option str -> Prop :=
| DPublic k a q x r b q' y r' : alow k = u "public" -> blank_by is_space a -> blank_by is_space b -> In q [34; 39] -> ~ In q x -> In q' [34; 39] -> ~ In q' y ->
    r = b ++ q' :: y ++ q' :: r' -> identifiers (k ++ a ++ q :: x ++ q :: r) (Some (map nul x)) (Some (map nul y))
| DPublicOnly k a q x r : alow k = u "public" -> blank_by is_space a -> In q [34; 39] -> ~ In q x -> no_quoted r -> identifiers (k ++ a ++ q :: x ++ q :: r) (Some (map nul x)) None
| DSystem k a q x r : alow k = u "system" -> blank_by is_space a -> In q [34; 39] -> ~ In q x -> identifiers (k ++ a ++ q :: x ++ q :: r) None (Some (map nul x))
| DNone k r : In (alow k) [u "public"; u "system"] -> no_quoted r -> identifiers (k ++ r) None None
| DOther s : ~ In (alow (firstn 6 s)) [u "public"; u "system"] -> identifiers s None None.
(* the name is the first word, in lower case *)
Definition doctype (d : str) (name public_id system_id : option str) : Prop :=
  match name with
  | None => blank_by is_space d /\ public_id = None /\ system_id = None
  | Some n => exists a word b r, d = a ++ word ++ b ++ r /\ word <> [] /\ blank_by is_space a /\ (forall c, In c word -> is_space c = false) /\ blank_by is_space b /\
      match b ++ r with [] => True | c :: _ => is_space c = true end /\ match r with [] => True | c :: _ => is_space c = false end /\
      n = map nul (lower word) /\ identifiers r public_id system_id
  end.

(* an end tag for name begins here *)
Definition closes (name s : str) : Prop := exists n r, s = 60 :: 47 :: n ++ r /\ alow n = name /\ match r with c :: _ => In c end_stops | [] => False end.
(* the text t of an element ends at the first end tag, s: none begins before.  In a script that holds <!-- the end is another matter (C42) *)
Definition ends_text (name t s : str) : Prop :=
  (s = [] \/ closes name s) /\ (name = u "script" -> contains (u "<!--") t = false -> forall a b, t ++ s = a ++ b -> (List.length a < List.length t)%nat -> ~ closes name b) /\
  (name <> u "script" -> forall a b, t ++ s = a ++ b -> (List.length a < List.length t)%nat -> ~ closes name b).
Definition raw_text_elements : list str := map u ["script"; "style"; "iframe"; "noembed"; "noframes"; "noscript"; "xmp"]%string.
Definition rcdata_elements : list str := map u ["textarea"; "title"]%string.
Definition foreign_elements : list str := map u ["svg"; "math"]%string.

(* the attributes written between a tag's name and its >: names and values as they stand in the html, in order *)
Definition name_char (c : N) : Prop := ~ In c [9; 10; 12; 32; 47; 62; 61].
Definition blank (w : str) : Prop := forall c, In c w -> In c [9; 10; 12; 13; 32].
Definition attribute_name (k : str) : Prop := k <> [] /\ (forall c, In c k -> name_char c) /\ match k with c :: _ => c <> 13 | [] => False end.
Inductive attributes : str -> list (str * str) -> Prop :=
| ANone : attributes [] []
(* white space; a stray / or = *)
| AJunk c w l : In c [9; 10; 12; 13; 32; 47; 61] -> attributes w l -> attributes (c :: w) l
(* a name alone: after it no more of the name, and after white space no = *)
| AName k b w l : attribute_name k -> blank b -> match b ++ w with c :: _ => ~ name_char c | [] => True end -> match w with c :: _ => ~ In c [9; 10; 12; 13; 32; 61] | [] => True end ->
    attributes w l -> attributes (k ++ b ++ w) ((k, []) :: l)
| AQuoted k a b q v w l : attribute_name k -> blank a -> match a with c :: _ => c <> 13 | [] => True end -> blank b -> In q [34; 39] -> ~ In q v ->
    attributes w l -> attributes (k ++ a ++ 61 :: b ++ q :: v ++ q :: w) ((k, v) :: l)
(* an unquoted value ends at white space or at the end of the tag *)
| AUnquoted k a b v w l : attribute_name k -> blank a -> match a with c :: _ => c <> 13 | [] => True end -> blank b -> (forall c, In c v -> ~ In c [9; 10; 12; 13; 32; 62]) ->
    match v ++ w with c :: _ => ~ In c [9; 10; 12; 13; 32; 34; 39] | [] => True end -> match w with c :: _ => In c [9; 10; 12; 13; 32] | [] => True end ->
    attributes w l -> attributes (k ++ a ++ 61 :: b ++ v ++ w) ((k, v) :: l).
(* of several attributes of one name the first counts *)
Fixpoint first_wins (l : list (str * str)) : list (str * str) :=
  match l with [] => [] | (k, v) :: t => (k, v) :: filter (fun p => negb (str_eqb (fst p) k)) (first_wins t) end.
(* names in lower case, values with references decoded; U+0000 replaced in both *)
Definition attribute_of (raw p : str * str) : Prop :=
  fst p = map nul (lower (fst raw)) /\ exists v, decode_entities_in_text (snd raw) true = Some v /\ snd p = map nul v.
Definition tag_attributes (w : str) (attrs : list (str * str)) : Prop :=
  exists raws l, attributes w raws /\ Forall2 attribute_of raws l /\ attrs = first_wins l.

(* What the html stands for, piece after piece.  f: an svg or math tag has come before.  Where none has, what a piece stands for is determined;
   after one, elements that hold raw text may or may not (inside svg and math they do not), and [CDATA[ may or may not begin text. *)
Inductive covers : bool -> str -> list item -> Prop :=
| CNil f : covers f [] []
(* text, up to the next < *)
| CText f w v s l : w <> [] -> ~ In 60 w -> s = [] \/ starts [60] s = true -> decode_entities_in_text (newlines w) false = Some v -> covers f s l -> covers f (w ++ s) (map IChar v ++ l)
(* a < that begins nothing *)
| CLess f s l : match s with [] => True | c :: _ => is_alpha_ascii c = false /\ ~ In c [33; 47; 63] end -> covers f s l -> covers f (60 :: s) (IChar 60 :: l)
| CLessSlash f : covers f [60; 47] [IChar 60; IChar 47]
| CNothing f s l : covers f s l -> covers f (60 :: 47 :: 62 :: s) l
(* comments: the data goes up to the first of --> and --!> ; after <!-- at once > or -> ends it as well; at the end of the html a final -- is dropped *)
| CCommentShort f b s l : In b [u ">"; u "->"] -> covers f s l -> covers f (u "<!--" ++ b ++ s) (IComment [] :: l)
| CComment f d b s l : In b [u "-->"; u "--!>"] \/ (s = [] /\ (b = u "--" \/ b = [] /\ ends (u "--") d = false)) -> 
    contains (u "-->") d = false -> contains (u "--!>") d = false -> starts (u ">") (d ++ b) = false -> starts (u "->") (d ++ b) = false ->
    covers f s l -> covers f (u "<!--" ++ d ++ b ++ s) (IComment (map nul d) :: l)
(* what HTML calls bogus comments: <!x> </1> <?x> *)
| CBogus f a d b s l : a = u "<!" /\ starts (u "--") (d ++ b ++ s) = false /\ alow (firstn 7 (d ++ b ++ s)) <> u "doctype" \/ a = u "</" /\ (match d with c :: _ => is_alpha_ascii c = false | [] => False end) \/ a = u "<" /\ starts [63] d = true ->
    b = [62] \/ (s = [] /\ b = []) -> ~ In 62 d -> covers f s l -> covers f (a ++ d ++ b ++ s) (IComment (map nul d) :: l)
| CDoctype f k d b x y z s l : alow k = u "doctype" -> ~ In 62 d -> b = [62] \/ (s = [] /\ b = []) -> doctype d x y z ->
    covers f s l -> covers f (u "<!" ++ k ++ d ++ b ++ s) (IDoctype x y z :: l)
| CCdata k d b s l : alow k = u "[cdata[" -> contains (u "]]>") d = false -> b = u "]]>" \/ (s = [] /\ b = []) -> covers true s l -> covers true (u "<!" ++ k ++ d ++ b ++ s) (map IChar (newlines d) ++ l)
(* tags *)
| CStart f c n w attrs s l : is_alpha_ascii c = true -> name_ends start_stops (c :: n) (w ++ [62]) -> tag_attributes w attrs ->
    (f = false -> ~ In (lower (c :: n)) (u "plaintext" :: raw_text_elements ++ rcdata_elements)) ->
    covers (f || in_strs (lower (c :: n)) foreign_elements) s l -> covers f ((60 :: c :: n) ++ w ++ 62 :: s) (IStart (lower (c :: n)) attrs :: l)
(* an end tag; the last clause: the html ends with > inside a quoted string of the tag *)
| CEnd f c n w s l : is_alpha_ascii c = true -> name_ends end_stops (c :: n) (w ++ [62]) -> tail w \/ s = [] /\ never_ends (w ++ [62]) -> covers f s l -> covers f ((60 :: 47 :: c :: n) ++ w ++ 62 :: s) (IEnd (lower (c :: n)) :: l)
(* an element that holds raw text, up to its end tag: its text is taken as it is (U+0000 replaced), with references decoded in title and textarea *)
| CPlaintext f c n w attrs t : is_alpha_ascii c = true -> name_ends start_stops (c :: n) (w ++ [62]) -> tag_attributes w attrs -> lower (c :: n) = u "plaintext" ->
    covers f ((60 :: c :: n) ++ w ++ 62 :: t) (IStart (lower (c :: n)) attrs :: map IChar (map nul (newlines t)))
| CRaw f c n w attrs t s l : is_alpha_ascii c = true -> name_ends start_stops (c :: n) (w ++ [62]) -> tag_attributes w attrs -> In (lower (c :: n)) raw_text_elements ->
    ends_text (lower (c :: n)) t s -> covers f s l -> covers f ((60 :: c :: n) ++ w ++ 62 :: t ++ s) (IStart (lower (c :: n)) attrs :: map IChar (map nul (newlines t)) ++ l)
| CRcdata f c n w attrs t v s l : is_alpha_ascii c = true -> name_ends start_stops (c :: n) (w ++ [62]) -> tag_attributes w attrs -> In (lower (c :: n)) rcdata_elements ->
    ends_text (lower (c :: n)) t s -> decode_entities_in_text (map nul (newlines t)) false = Some v -> covers f s l ->
    covers f ((60 :: c :: n) ++ w ++ 62 :: t ++ s) (IStart (lower (c :: n)) attrs :: map IChar v ++ l)
(* a tag the html does not finish is dropped *)
| CUnfinished f c s : is_alpha_ascii c = true -> (forall n w r raws, c :: s = n ++ w ++ 62 :: r -> name_ends start_stops n (w ++ [62]) -> ~ attributes w raws) -> covers f (60 :: c :: s) []
| CUnfinishedEnd f c s : is_alpha_ascii c = true -> ends [62] (c :: s) = false -> (forall n w r, c :: s = n ++ w ++ 62 :: r -> name_ends end_stops n (w ++ [62]) -> ~ tail w) -> covers f (60 :: 47 :: c :: s) [].
