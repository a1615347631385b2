(* SPECIFICATION for C66: the rules of the HTML standard (https://html.spec.whatwg.org/multipage/parsing.html) for ordinary tags in "in body" and in foreign content,
   on the stack of open elements, the current node first.  No indices, no reference to the parser's searches *)
From Coq Require Import List Arith Bool String.
From Verif Require Import Str.
From Verif Require Import AaaModel GuardModel CloseModel.
Import ListNotations.
Open Scope string_scope. Open Scope list_scope. Open Scope nat_scope.

Definition one_of (l : list string) (n : str) : bool := in_strs n (map u l).
Definition is (n : string) (e : el) : bool := html e && str_eqb (en e) (u n).
(* 13.2.4.2 The stack of open elements: the special category, and the particular scopes *)
Definition mathml_points : list string := ["mi"; "mo"; "mn"; "ms"; "mtext"; "annotation-xml"].
Definition svg_points : list string := ["foreignObject"; "desc"; "title"].
Definition special_element (e : el) : bool :=
  match es e with
  | Html => one_of ["address"; "applet"; "area"; "article"; "aside"; "base"; "basefont"; "bgsound"; "blockquote"; "body"; "br"; "button"; "caption"; "center"; "col"; "colgroup"; "dd"; "details"; "dir"; "div"; "dl"; "dt"; "embed"; "fieldset"; "figcaption"; "figure"; "footer"; "form"; "frame"; "frameset"; "h1"; "h2"; "h3"; "h4"; "h5"; "h6"; "head"; "header"; "hgroup"; "hr"; "html"; "iframe"; "img"; "input"; "keygen"; "li"; "link"; "listing"; "main"; "marquee"; "menu"; "meta"; "nav"; "noembed"; "noframes"; "noscript"; "object"; "ol"; "p"; "param"; "plaintext"; "pre"; "script"; "search"; "section"; "select"; "source"; "style"; "summary"; "table"; "tbody"; "td"; "template"; "textarea"; "tfoot"; "th"; "thead"; "title"; "tr"; "track"; "ul"; "wbr"; "xmp"] (en e)
  | Math => one_of mathml_points (en e)
  | Svg => one_of svg_points (en e)
  end.
Definition ends_scope (more : list string) (e : el) : bool :=
  match es e with
  | Html => one_of (more ++ ["applet"; "caption"; "html"; "table"; "td"; "th"; "marquee"; "object"; "template"]) (en e)
  | Math => one_of mathml_points (en e)
  | Svg => one_of svg_points (en e)
  end.
(* going down from the current node, an element that satisfies p is met, and no element that satisfies stop is met before it *)
Fixpoint reaches (p stop : el -> bool) (l : stack) : bool := match l with [] => false | e :: t => p e || (negb (stop e) && reaches p stop t) end.
(* "has an element in the specific scope", for an element that satisfies p *)
Definition in_scope (p : el -> bool) (more : list string) (l : stack) : bool := reaches p (ends_scope more) l.
Definition element (name : str) (e : el) : bool := html e && str_eqb (en e) name.
(* "pop elements until one that satisfies p has been popped" *)
Fixpoint pop_until (p : el -> bool) (l : stack) : stack := match l with [] => [] | e :: t => if p e then t else pop_until p t end.
(* "generate implied end tags (except for ...)" *)
Fixpoint generate (except : el -> bool) (l : stack) : stack :=
  match l with
  | [] => []
  | e :: t => if html e && one_of ["dd"; "dt"; "li"; "optgroup"; "option"; "p"; "rb"; "rp"; "rt"; "rtc"] (en e) && negb (except e) then generate except t else l
  end.
Definition never (_ : el) : bool := false.
(* "close a p element", if there is one in button scope *)
Definition close_p (l : stack) : stack := if in_scope (is "p") ["button"] l then pop_until (is "p") (generate (is "p") l) else l.

Definition heading (e : el) : bool := html e && one_of ["h1"; "h2"; "h3"; "h4"; "h5"; "h6"] (en e).
(* start tags li, dd, dt: the loop over the stack.  stop: the elements closed; what is found is popped with all above it *)
Definition stops_item (e : el) : bool := special_element e && negb (is "address" e || is "div" e || is "p" e).
Fixpoint item_loop (wanted : el -> bool) (l : stack) : option el :=
  match l with
  | [] => None
  | e :: t => if wanted e then Some e else if stops_item e then None else item_loop wanted t
  end.
Definition definition (e : el) : bool := is "dd" e || is "dt" e.
Definition close_item (wanted : el -> bool) (l : stack) : stack :=
  match item_loop wanted l with
  | None => l
  | Some e => pop_until (element (en e)) (generate (element (en e)) l)
  end.
(* the elements that have no end tag *)
Definition void_element (name : str) : bool := one_of ["area"; "base"; "basefont"; "bgsound"; "br"; "col"; "embed"; "frame"; "hr"; "img"; "input"; "keygen"; "link"; "meta"; "param"; "source"; "track"; "wbr"] name.
(* the rules of "in body" for start tags: what is closed before the element is inserted *)
Definition closes_p : list string := ["address"; "article"; "aside"; "blockquote"; "center"; "details"; "dialog"; "dir"; "div"; "dl"; "fieldset"; "figcaption"; "figure"; "footer"; "header"; "hgroup"; "main"; "menu"; "nav"; "ol"; "p"; "search"; "section"; "summary"; "ul"; "pre"; "listing"; "hr"].
Definition before_insertion (name : str) (l : stack) : stack :=
  if one_of closes_p name then close_p l
  else if one_of ["h1"; "h2"; "h3"; "h4"; "h5"; "h6"] name then
    match close_p l with e :: t => if heading e then t else e :: t | [] => [] end
  else if one_of ["li"] name then close_p (close_item (is "li") l)
  else if one_of ["dd"; "dt"] name then close_p (close_item definition l)
  else if one_of ["button"] name then
    if in_scope (is "button") [] l then pop_until (is "button") (generate never l) else l
  else if one_of ["rb"; "rtc"] name then if in_scope (is "ruby") [] l then generate never l else l
  else if one_of ["rp"; "rt"] name then if in_scope (is "ruby") [] l then generate (is "rtc") l else l
  else l.
Definition opened (name : str) (encoded self_closing : bool) (ns : space) (l : stack) : stack * made :=
  let e := El (match ns with Svg => svg_name name | _ => name end) ns encoded in
  (if match ns with Html => void_element name | _ => self_closing end then l else e :: l, [(e, l)]).
Definition namespace_of (name : str) : space := if one_of ["svg"] name then Svg else if one_of ["math"] name then Math else Html.
Definition std_body_start (name : str) (encoded self_closing : bool) (l : stack) : stack * made := opened name encoded self_closing (namespace_of name) (before_insertion name l).
(* integration points *)
Definition mathml_text_point (e : el) : bool := match es e with Math => one_of ["mi"; "mo"; "mn"; "ms"; "mtext"] (en e) | _ => false end.
Definition html_integration_point (e : el) : bool :=
  match es e with Math => one_of ["annotation-xml"] (en e) && enc e | Svg => one_of svg_points (en e) | Html => false end.
Definition point (e : el) : bool := mathml_text_point e || html_integration_point e.
(* 13.2.6 the dispatcher *)
Definition by_html_rules (name : str) (l : stack) : bool :=
  match l with
  | [] => true
  | e :: _ => html e || (mathml_text_point e && negb (one_of ["mglyph"; "malignmark"] name)) || (match es e with Math => one_of ["annotation-xml"] (en e) && one_of ["svg"] name | _ => false end)
              || html_integration_point e
  end.
(* 13.2.6.5 "while the current node is not a MathML text integration point, an HTML integration point, or an element in the HTML namespace, pop" *)
Fixpoint leave_foreign (l : stack) : stack := match l with [] => [] | e :: t => if html e || point e then l else leave_foreign t end.
Definition breaks_out (name : str) : bool := one_of ["b"; "big"; "blockquote"; "body"; "br"; "center"; "code"; "dd"; "div"; "dl"; "dt"; "em"; "embed"; "h1"; "h2"; "h3"; "h4"; "h5"; "h6"; "head"; "hr"; "i"; "img"; "li"; "listing"; "menu"; "meta"; "nobr"; "ol"; "p"; "pre"; "ruby"; "s"; "small"; "span"; "strong"; "strike"; "sub"; "sup"; "table"; "tt"; "u"; "ul"; "var"] name.
Definition std_start (name : str) (encoded self_closing : bool) (l : stack) : stack * made :=
  if by_html_rules name l then std_body_start name encoded self_closing l
  else if breaks_out name then std_body_start name encoded self_closing (leave_foreign l)
  else match l with e :: _ => opened name encoded self_closing (es e) l | [] => (l, []) end.

(* "in body", end tags *)
Definition any_other (name : str) (l : stack) : bool := reaches (element name) special_element l.
Definition std_body_end (name : str) (l : stack) : stack * made :=
  let scoped more := if in_scope (element name) more l then (pop_until (element name) (generate (element name) l), []) else (l, []) in
  if one_of ["address"; "article"; "aside"; "blockquote"; "button"; "center"; "details"; "dialog"; "dir"; "div"; "dl"; "fieldset"; "figcaption"; "figure"; "footer"; "header"; "hgroup"; "listing"; "main"; "menu"; "nav"; "ol"; "pre"; "search"; "section"; "summary"; "ul"; "applet"; "marquee"; "object"] name
  then if in_scope (element name) [] l then (pop_until (element name) (generate never l), []) else (l, [])
  else if one_of ["p"] name then
    if in_scope (is "p") ["button"] l then (close_p l, []) else (l, [(El name Html false, l)])
  else if one_of ["li"] name then scoped ["ol"; "ul"]
  else if one_of ["dd"; "dt"] name then scoped []
  else if one_of ["h1"; "h2"; "h3"; "h4"; "h5"; "h6"] name then
    if in_scope heading [] l then (pop_until heading (generate never l), []) else (l, [])
  else if one_of ["br"] name then (l, [(El name Html false, l)])
  else if any_other name l then (pop_until (element name) (generate (element name) l), []) else (l, []).
(* 13.2.6.5, any other end tag *)
Inductive foreign_end := Popped (l : stack) | Html_rules.
Fixpoint foreign_loop (name : str) (l : stack) : foreign_end :=
  match l with
  | [] => Html_rules
  | e :: t => if html e then Html_rules else if str_eqb (lower (en e)) name then Popped t else foreign_loop name t
  end.
Definition std_end (name : str) (l : stack) : stack * made :=
  match l with
  | e :: _ =>
    if html e then std_body_end name l
    else if one_of ["br"; "p"] name then std_body_end name (leave_foreign l)
    else match foreign_loop name l with Popped t => (t, []) | Html_rules => std_body_end name l end
  | [] => (l, [])
  end.

(* ---- where the parser is not known to follow, or does not follow, the standard: the tags the theorems leave out ---- *)
Definition mem_name (l : list string) (e : el) : bool := one_of l (en e).
(* a start tag, on the stack on which the rules of "in body" are applied *)
Definition ok_body_start (name : str) (l : stack) : bool :=
  if one_of ["li"] name then
    (* an integration point between the tag and an open li, and a dialog *)
    (reaches (is "li") stops_item l || negb (reaches (is "li") (fun e => html e && stops_item e) l)) && negb (reaches (is "dialog") (fun e => is "li" e || stops_item e) l)
  else if one_of ["dd"; "dt"] name then
    (* a special element between the tag and an open dd or dt *)
    reaches definition stops_item l || negb (reaches definition (fun e => html e && ends_scope ["dl"] e) l)
  else if one_of ["button"] name then negb (existsb (mem_name ["button"]) l) || in_scope (is "button") [] l
  else if one_of ["rb"; "rtc"] name then
    negb (existsb (mem_name ["ruby"]) l) || in_scope (is "ruby") [] l && match l with e :: _ => negb (mem_name ["dd"; "dt"; "li"; "optgroup"; "option"; "p"] e) | [] => true end
  else if one_of ["rp"; "rt"] name then negb (existsb (mem_name ["ruby"]) l) || in_scope (is "ruby") [] l
  else true.
Definition ok_start (name : str) (l : stack) : bool :=
  negb (by_html_rules name l || breaks_out name) || ok_body_start name (leave_foreign l).
Definition unencoded (e : el) : bool := match es e with Math => one_of ["annotation-xml"] (en e) && negb (enc e) | _ => false end.
(* the end tags for which "any other end tag" applies *)
Definition other_end (name : str) : bool :=
  negb (one_of (["address"; "article"; "aside"; "blockquote"; "button"; "center"; "details"; "dialog"; "dir"; "div"; "dl"; "fieldset"; "figcaption"; "figure"; "footer"; "header"; "hgroup"; "listing"; "main"; "menu"; "nav"; "ol"; "pre"; "search"; "section"; "summary"; "ul"; "applet"; "marquee"; "object"] ++ ["p"; "li"; "dd"; "dt"; "h1"; "h2"; "h3"; "h4"; "h5"; "h6"; "br"]) name).
Definition ok_end (name : str) (l : stack) : bool :=
  match l with e :: _ => negb (html e) && negb (one_of ["br"; "p"] name) && match foreign_loop name l with Popped _ => true | Html_rules => false end | [] => true end
  || negb (one_of (svg_points ++ mathml_points) name)
     && negb (reaches unencoded (fun e => html e || point e) l)
     && (negb (one_of ["dd"; "dt"] name) || negb (in_scope (element name) [] l) || in_scope (element name) ["dl"] l)
     && (negb (one_of ["audio"; "slot"] name) || any_other name l || negb (existsb (fun e => str_eqb (lower (en e)) name) l))
     && (negb (other_end name) || negb (reaches (is "dialog") (fun e => element name e || special_element e) l)).

(* ---- histories: tags one after another, from the moment the body is open ---- *)
Definition body_open : stack := [El (u "body") Html false; El (u "html") Html false].
Definition formatting (e : el) : bool := html e && one_of ["a"; "b"; "big"; "code"; "em"; "font"; "i"; "nobr"; "s"; "small"; "strike"; "strong"; "tt"; "u"] (en e).
(* every HTML element is in an HTML element or in an integration point *)
Fixpoint well_placed (l : stack) : Prop :=
  match l with [] => True | e :: t => (html e = true -> match t with f :: _ => html f || point f = true | [] => True end) /\ well_placed t end.
(* Reformat: formatting elements are opened, closed or moved (start tags of formatting elements, reconstruction, the adoption agency: C62, C64); nothing else changes *)
Definition reformatted (l l' : stack) : Prop :=
  exists a a', l = a ++ body_open /\ l' = a' ++ body_open /\ filter (fun e => negb (formatting e)) a = filter (fun e => negb (formatting e)) a' /\ well_placed l'.
Inductive event := Start (name : str) (encoded self_closing : bool) | End (name : str) | Reformat (l : stack).
Definition step (st : str -> bool -> bool -> stack -> stack * made) (en : str -> stack -> stack * made) (e : event) (l : stack) : stack * made :=
  match e with Start n c s => st n c s l | End n => en n l | Reformat l' => (l', []) end.
Fixpoint run (st : str -> bool -> bool -> stack -> stack * made) (en : str -> stack -> stack * made) (es : list event) (l : stack) : stack * made :=
  match es with [] => (l, []) | e :: es => let '(l, m) := step st en e l in let '(l, m') := run st en es l in (l, m ++ m') end.
Definition by_standard : list event -> stack -> stack * made := run std_start std_end.
Definition by_parser (quirks : bool) : list event -> stack -> stack * made := run (start_tag quirks) end_tag.
(* names as the tokenizer gives them, of the tags modelled *)
Definition tag_name (name : str) : bool := str_eqb (lower name) name && ordinary name.
Definition ok_event (e : event) (l : stack) : Prop :=
  match e with
  | Start n _ _ => tag_name n = true /\ ok_start n l = true
  | End n => tag_name n = true /\ ok_end n l = true
  | Reformat l' => reformatted l l'
  end.
(* along the standard's own run *)
Fixpoint ok_events (es : list event) (l : stack) : Prop :=
  match es with [] => True | e :: es => ok_event e l /\ ok_events es (fst (step std_start std_end e l)) end.
Definition reached (l : stack) : Prop := exists es, ok_events es body_open /\ fst (by_standard es body_open) = l.
