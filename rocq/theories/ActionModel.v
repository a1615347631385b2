(* What the default sanitizing engine knows about each tag, compiled from the policy, and what it makes of the attributes of a tag.
   Model of src/justhtml/parser/engine.py:76-262 (tables), 411-547, 561-600, 6281-6318.  No proofs in this file. *)
From Coq Require Import NArith List Bool String.
From Verif Require Import Str SerializerModel UrlModel SanModel GuardModel SkipModel.
From Verif Require AttrModel.
Import ListNotations.
Open Scope list_scope.
Open Scope N_scope.

(* engine.py:84, 93-146 (with HEADING_ELEMENTS, core/constants.py:189), 82, 200-201, 213, 248-263, 83, 147-160, 161-176, 177-194 *)
Definition headings : list str := map u ["h1"; "h2"; "h3"; "h4"; "h5"; "h6"]%string.
Definition head_content_tags : list str := map u ["base"; "basefont"; "bgsound"; "link"; "meta"; "noframes"; "noscript"; "script"; "style"; "template"; "title"]%string.
Definition p_closing_tags : list str := map u ["address"; "article"; "aside"; "blockquote"; "center"; "details"; "dialog"; "dir"; "div"; "dl"; "fieldset"; "figcaption"; "figure"; "footer"; "form"; "header"; "hgroup"; "hr"; "listing"; "main"; "menu"; "nav"; "ol"; "p"; "pre"; "search"; "section"; "summary"; "table"; "ul"; "dd"; "dt"; "li"; "xmp"]%string ++ headings.
Definition pre_linefeed_tags : list str := map u ["listing"; "pre"]%string.
Definition table_section_tags : list str := map u ["tbody"; "thead"; "tfoot"]%string.
Definition table_cell_tags : list str := map u ["td"; "th"]%string.
Definition table_structure_tags : list str := map u ["caption"; "col"; "colgroup"; "table"; "tbody"; "td"; "tfoot"; "th"; "thead"; "tr"]%string.
Definition frameset_blocking_tags : list str := map u ["applet"; "area"; "button"; "dd"; "dt"; "embed"; "iframe"; "input"; "keygen"; "listing"; "marquee"; "object"; "select"; "textarea"; "wbr"; "xmp"]%string.
Definition marker_tags : list str := map u ["applet"; "caption"; "marquee"; "object"]%string.
Definition simple_start_exclusions : list str := map u ["body"; "button"; "caption"; "col"; "colgroup"; "form"; "head"; "html"; "select"; "table"; "tbody"; "td"; "tfoot"; "th"; "thead"; "tr"; "dd"; "dt"; "li"; "optgroup"; "option"]%string ++ headings ++ marker_tags.
Definition simple_end_exclusions : list str := map u ["body"; "br"; "colgroup"; "head"; "html"; "table"; "tbody"; "template"; "tfoot"; "thead"; "tr"]%string ++ headings ++ map u ["td"; "th"]%string ++ marker_tags.
Definition drop_subtree_tags : list str := map u ["svg"; "math"]%string.
(* core/constants.py:496-513 VOID_ELEMENTS *)
Definition void_tags : list str := map u ["area"; "base"; "br"; "col"; "embed"; "hr"; "img"; "input"; "link"; "meta"; "param"; "source"; "track"; "wbr"]%string.

(* engine.py:411-436 TagAction.  url_attrs: attribute, kind, rule, and whether relative URLs are allowed if the short check may be used *)
Record tag_action := TagAction {
  a_name : str; a_allowed : bool; a_attrs : list str; a_state : list str; a_urls : list (str * (sink_kind * url_rule * option bool));
  a_scan : bool; a_simple_end : bool; a_simple_start : bool; a_preserve : bool; a_formatting : bool; a_blocks_frameset : bool; a_drop_content : bool;
  a_drop_subtree : bool; a_head_content : bool; a_p_closing : bool; a_plaintext : bool; a_pre_linefeed : bool; a_rawtext_as_text : bool;
  a_rcdata : bool; a_table_cell : bool; a_table_section : bool; a_void : bool }.

(* engine.py:461-476 known_tags *)
Definition known_tags (p : policy) (scripting : bool) : list str :=
  allowed_tags p ++ drop_content_tags p ++ drop_subtree_tags ++ rawtext_as_text scripting ++ rcdata_tags ++ plaintext_tags ++ formatting_names
  ++ head_content_tags ++ p_closing_tags ++ pre_linefeed_tags ++ table_section_tags ++ table_cell_tags ++ table_structure_tags ++ frameset_blocking_tags
  ++ map u ["body"; "button"; "frameset"; "head"; "html"; "image"; "input"; "optgroup"; "option"; "template"; "tr"]%string.
(* engine.py:570-574 allowed_global, allowed_by_tag: a dict, so of two tags equal in lower case the last counts *)
Definition allowed_global (p : policy) : list str := match assoc [42] (allowed_attributes p) with Some l => l | None => [] end.
Definition allowed_by_tag (p : policy) : list (str * list str) :=
  rev (map (fun e => (lower (fst e), allowed_global p ++ snd e)) (filter (fun e => negb (str_eqb (fst e) [42])) (allowed_attributes p))).
(* engine.py:480-481 *)
Definition action_attrs (p : policy) (tag : str) : list str :=
  if in_strs tag (allowed_tags p) then match assoc tag (allowed_by_tag p) with Some l => l | None => allowed_global p end else [].
(* engine.py:490-515: what is to be done with one attribute *)
Definition url_action (up : url_policy) (tag attr : str) : option (sink_kind * url_rule * option bool) :=
  match rule_for up tag attr with
  | None => None
  | Some rule =>
    match (if is_sink_attr attr then sink_kind_for tag attr [(attr, Some [])] else Some KUrl) with
    | None => None
    | Some kind =>
      let is_url := match kind with KUrl => true | _ => false end in
      Some (kind, rule, if is_url && fast_eligible up rule then Some (effective_allow_relative up rule) else None)
    end
  end.
Definition action_urls (p : policy) (tag : str) : list (str * (sink_kind * url_rule * option bool)) :=
  flat_map (fun attr => match url_action (pol_url p) tag attr with Some x => [(attr, x)] | None => [] end) (action_attrs p tag).
(* engine.py:479-546: one turn of the loop over the tags *)
Definition compile_action (p : policy) (scripting : bool) (tag : str) : tag_action :=
  let allowed := in_strs tag (allowed_tags p) in
  let state := if str_eqb tag (u "input") then [u "type"] else if str_eqb tag (u "option") then [u "selected"] else [] in
  let formatting := in_strs tag formatting_names in
  let preserve := formatting && negb allowed in
  let nonempty (l : list str) := match l with [] => false | _ => true end in
  TagAction tag allowed (action_attrs p tag) state (action_urls p tag)
    (nonempty (action_attrs p tag) || nonempty state || preserve)
    (negb formatting && negb (in_strs tag simple_end_exclusions))
    (allowed && negb (in_strs tag simple_start_exclusions) && negb formatting && negb (in_strs tag frameset_blocking_tags)
     && negb (in_strs tag (drop_content_tags p)) && negb (in_strs tag drop_subtree_tags) && negb (in_strs tag head_content_tags)
     && negb (in_strs tag plaintext_tags) && negb (in_strs tag (rawtext_as_text scripting)) && negb (in_strs tag rcdata_tags)
     && negb (in_strs tag table_cell_tags) && negb (in_strs tag table_section_tags))
    preserve formatting (in_strs tag frameset_blocking_tags) (in_strs tag (drop_content_tags p)) (in_strs tag drop_subtree_tags) (in_strs tag head_content_tags)
    (in_strs tag p_closing_tags) (in_strs tag plaintext_tags) (in_strs tag pre_linefeed_tags) (in_strs tag (rawtext_as_text scripting)) (in_strs tag rcdata_tags)
    (in_strs tag table_cell_tags) (in_strs tag table_section_tags) (in_strs tag void_tags).
(* engine.py:561-600 compile_engine_plan, tag_actions.get(tag) *)
Definition plan_action (p : policy) (scripting : bool) (tag : str) : option tag_action :=
  if in_strs tag (known_tags p scripting) then Some (compile_action p scripting tag) else None.

(* engine.py:6294-6297, 6418-6421: invisible characters are removed *)
Definition visible (p : policy) (value : str) : str := if pol_strip_invisible p && negb (is_ascii value) then strip_invisible value else value.
(* engine.py:6298-6317, 6422-6440: the value of an attribute that is kept *)
Definition checked (py : urllib) (p : policy) (a : tag_action) (key value : str) : outcome :=
  match assoc key (a_urls a) with
  | None => Keep value
  | Some (kind, rule, fast) =>
    match match fast with Some allow_relative => url_fast value rule allow_relative | None => None end with
    | Some o => o
    | None => sanitize_sink py (pol_url p) rule (a_name a) key kind value
    end
  end.
Definition action_value (py : urllib) (p : policy) (a : tag_action) (key value : str) : outcome := checked py p a key (visible p value).
(* engine.py:6281-6318 _sanitize_parsed_attrs.  None: exception *)
Fixpoint sanitize_attrs (py : urllib) (p : policy) (a : tag_action) (attrs : list (str * str)) : option (list (str * str)) :=
  match attrs with
  | [] => Some []
  | (key, value) :: r =>
    if negb (in_strs key (a_attrs a)) then sanitize_attrs py p a r
    else match action_value py p a key value with
         | Err => None
         | Drop => sanitize_attrs py p a r
         | Keep v => option_map (cons (key, v)) (sanitize_attrs py p a r)
         end
  end.
Definition sanitize_parsed_attrs (py : urllib) (p : policy) (a : option tag_action) (attrs : list (str * str)) : option (list (str * str)) :=
  match a with
  | None => Some attrs
  | Some a => if a_allowed a then sanitize_attrs py p a attrs else Some attrs
  end.
(* The same action as engine.py:6320-6441 _parse_attrs_for_action reads it (AttrModel.v).  An exception counts as dropping here; the default
   policies raise none. *)
Definition reading (py : urllib) (p : policy) (a : tag_action) : AttrModel.action :=
  AttrModel.Action (a_attrs a) (a_state a) (a_preserve a) (fun k v => match checked py p a k v with Keep v => Some v | _ => None end).
