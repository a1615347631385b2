(* MODEL of how a parse with a built-in default policy puts elements into the tree and records the ones to be taken out again: parser/engine.py:4121-4236
   (_insert_compiled_safe_element, _insert_sanitized_element), 4302-4352 and 4386-4397 (namespaces and integration points), 5535-5599 (formatting start tags),
   5713-5742 (reconstruction), 5936-5942 (clones made by the adoption agency algorithm, AaaModel) and the attributes they are given (AttrModel).
   Simplifications: which elements are closed when (end tags, implied end tags, repairs) is left open: GStack sets the stack to any list; whether formatting is
   reconstructed is a parameter of the event (C64 is about the flag); where in the tree an element goes does not matter here and is left out, but its parent
   decides whether it is also recorded to be dropped; elements of parser-only templates' own (1929, never in the tree) and copies for selectedcontent (C61) are left out. *)
From Coq Require Import List Arith Bool String.
From Verif Require Import Str.
From Verif Require Import FinishModel AaaModel ReconModel.
From Verif Require AttrModel.
Import ListNotations.
Open Scope string_scope. Open Scope list_scope. Open Scope nat_scope.

Notation attrs := (list (str * str)).
(* attr: node.attrs.  kept: the attrs of a _FormattingEntry, by e_token (the element it was created with).  engine.py:1328-1329 *)
Record gst := G { base : st; attr : nat -> attrs; kept : nat -> attrs; unwraps : list nat; drops : list nat }.
Definition cur (s : gst) : nat := top (stack (base s)).
Definition foreign (t : tag) : bool := match snd t with Html => false | _ => true end.
Definition set_base (b : st) (s : gst) : gst := G b (attr s) (kept s) (unwraps s) (drops s).
Definition set_stack (l : list nat) (s : gst) : gst := set_base (St l (active (base s)) (tags (base s)) (next (base s)) (ops (base s))) s.
Definition set_active (l : list slot) (s : gst) : gst := set_base (St (stack (base s)) l (tags (base s)) (next (base s)) (ops (base s))) s.

(* core/constants.py:418-463 FOREIGN_BREAKOUT_ELEMENTS *)
Definition breakout_names : list str := map u ["b"; "big"; "blockquote"; "body"; "br"; "center"; "code"; "dd"; "div"; "dl"; "dt"; "em"; "embed"; "h1"; "h2"; "h3"; "h4"; "h5"; "h6"; "head"; "hr"; "i"; "img"; "li"; "listing"; "menu"; "meta"; "nobr"; "ol"; "p"; "pre"; "ruby"; "s"; "small"; "span"; "strong"; "strike"; "sub"; "sup"; "table"; "tt"; "u"; "ul"; "var"].
(* core/constants.py:256-271 FORMATTING_ELEMENTS *)
Definition formatting_names : list str := map u ["a"; "b"; "big"; "code"; "em"; "font"; "i"; "nobr"; "s"; "small"; "strike"; "strong"; "tt"; "u"].
(* core/constants.py:496-513 VOID_ELEMENTS and engine.py:195 *)
Definition void_names : list str := map u ["area"; "base"; "br"; "col"; "embed"; "hr"; "img"; "input"; "link"; "meta"; "param"; "source"; "track"; "wbr"; "basefont"; "bgsound"; "frame"; "keygen"].
(* core/constants.py:379-416 SVG_TAG_NAME_ADJUSTMENTS: the values; a key is its value in lower case *)
Definition svg_names : list str := map u ["altGlyph"; "altGlyphDef"; "altGlyphItem"; "animateColor"; "animateMotion"; "animateTransform"; "clipPath"; "feBlend"; "feColorMatrix"; "feComponentTransfer"; "feComposite"; "feConvolveMatrix"; "feDiffuseLighting"; "feDisplacementMap"; "feDistantLight"; "feFlood"; "feFuncA"; "feFuncB"; "feFuncG"; "feFuncR"; "feGaussianBlur"; "feImage"; "feMerge"; "feMergeNode"; "feMorphology"; "feOffset"; "fePointLight"; "feSpecularLighting"; "feSpotLight"; "feTile"; "feTurbulence"; "foreignObject"; "glyphRef"; "linearGradient"; "radialGradient"; "textPath"].
Definition svg_name (n : str) : str := match List.find (fun m => str_eqb (alow m) n) svg_names with Some m => m | None => n end.

(* engine.py:4386-4394 _is_html_integration_point, core/constants.py:96-101 *)
Definition html_point (s : gst) (x : nat) : bool :=
  match tags (base s) x with
  | (n, Svg) => in_strs n (map u ["foreignObject"; "desc"; "title"])
  | (n, Math) => str_eqb n (u "annotation-xml") &&
      match List.find (fun p => str_eqb (lower (fst p)) (u "encoding")) (attr s x) with
      | Some p => in_strs (lower (snd p)) (map u ["application/xhtml+xml"; "text/html"])
      | None => false
      end
  | (_, Html) => false
  end.
(* engine.py:4396-4397 _is_mathml_text_integration_point, core/constants.py:105-111 *)
Definition text_point (s : gst) (x : nat) : bool :=
  match tags (base s) x with (n, Math) => in_strs n (map u ["mi"; "mo"; "mn"; "ms"; "mtext"]) | _ => false end.
(* engine.py:4315-4319 _is_foreign_breakout_start *)
Definition breakout (name : str) (a : attrs) : bool :=
  in_strs name breakout_names || (str_eqb name (u "font") && existsb (fun p => in_strs (lower (fst p)) (map u ["color"; "face"; "size"])) a).

Section guard.
Variable allowed : str -> bool.              (* the tags of the policy *)
Variable acts : str -> AttrModel.action.     (* what the policy does with the attributes of a tag: 448-556 _compile_tag_actions *)
Variable strict : bool.                      (* _strict_ascii_fold *)
Variable strip : str -> str.                 (* removal of invisible characters *)
Variable adjust : space -> attrs -> attrs.   (* engine.py:4354-4374 _prepare_foreign_attrs *)
Variable context : option nat.               (* _fragment_context_node *)
Definition is_context (x : nat) : bool := match context with Some c => x =? c | None => false end.

(* engine.py:4302-4313 _pop_foreign_for_breakout; the stack backwards *)
Fixpoint pop_foreign (s : gst) (back : list nat) : list nat :=
  match back with
  | x :: ((_ :: _) as t) => if foreign (tags (base s) x) && negb (is_context x) && negb (html_point s x) && negb (text_point s x) then pop_foreign s t else back
  | _ => back
  end.
(* engine.py:4335-4339 *)
Definition by_name (name : str) : space := if str_eqb name (u "svg") then Svg else if str_eqb name (u "math") then Math else Html.
(* engine.py:4321-4339 _namespace_for_raw_start *)
Definition namespace_for (name : str) (a : attrs) (s : gst) : space * gst :=
  let c := cur s in
  if foreign (tags (base s) c) then
    if html_point s c then (by_name name, s)
    else if text_point s c && negb (in_strs name (map u ["mglyph"; "malignmark"])) then (by_name name, s)
    else if match tags (base s) c with (n, Math) => str_eqb n (u "annotation-xml") && str_eqb name (u "svg") | _ => false end then (Svg, s)
    else if breakout name a then (by_name name, set_stack (rev (pop_foreign s (rev (stack (base s))))) s)
    else (snd (tags (base s) c), s)
  else (by_name name, s).
(* engine.py:4341-4352 _raw_start_uses_html_text_parsing *)
Definition html_text (name : str) (s : gst) : bool :=
  let c := cur s in
  negb (foreign (tags (base s) c)) || html_point s c || (text_point s c && negb (in_strs name (map u ["mglyph"; "malignmark"]))).

(* the element x is made and, if push, opened *)
Definition make (name : str) (ns : space) (a : attrs) (push : bool) (un dr : list nat) (s : gst) : gst :=
  let b := base s in
  let x := next b in
  G (St (if push then stack b ++ [x] else stack b) (active b) (upd (tags b) x (name, ns)) (S x) (ops b)) (upd (attr s) x a) (kept s) (unwraps s ++ un) (drops s ++ dr).
(* engine.py:4121-4151 _insert_compiled_safe_element, and its callers 2693-2695, 2763-2765, 3454-3455, 3465-3467, 3534-3535, 3553, 5580-5582, which record
   the element unless it is allowed; also 3262-3284, for an allowed tag *)
Definition insert_compiled (name : str) (a : attrs) (s : gst) : gst :=
  make name Html a (negb (in_strs name void_names)) (if allowed name then [] else [next (base s)]) [] s.
(* engine.py:4153-4236 _insert_sanitized_element.  in_template: _parser_only_template_depth *)
Definition insert_sanitized (in_template : bool) (name : str) (a : attrs) (self_closing : bool) (parent : nat) (s : gst) : gst :=
  let '(ns, s) := namespace_for name a s in
  let name := match ns with Svg => svg_name name | _ => name end in
  let a := match ns with Html => if allowed name then AttrModel.sanitize_parsed strip (acts name) a else a | _ => adjust ns a end in
  let parent := if foreign (tags (base s) parent) && negb (open_node parent (stack (base s))) then cur s else parent in
  let x := next (base s) in
  let void := match ns with Html => in_strs name void_names | _ => self_closing end in
  match ns with
  | Html => make name ns a (negb void) (if allowed name then [] else [x]) [] s
  | _ => make name ns a (negb void) [x]
           (if (is_context parent || negb (foreign (tags (base s) parent))) && negb in_template && (is_context parent || allowed (fst (tags (base s) parent))) then [x] else []) s
  end.

(* engine.py:3593-3597 and 3119-3260: all attributes if the current node is foreign or the tag is svg or math, else those for the action.  None: an exception.
   The third component: the tag was closed *)
Definition read_attrs (name src : str) (s : gst) : option (attrs * bool * bool) :=
  if foreign (tags (base s) (cur s)) || in_strs name (map u ["math"; "svg"])
  then option_map (fun r => match r with (a, self, _, closed) => (a, self, closed) end) (AttrModel.parse_all_attrs strict src)
  else option_map (fun r => match r with (a, self, _, closed) => (a, self, closed) end) (AttrModel.parse_attrs_for_action strict strip (acts name) src).

(* engine.py:5936-5942 _clone_formatting_entry for every clone made *)
Fixpoint absorb (o : list op) (s : gst) : gst :=
  match o with
  | [] => s
  | New x n t :: o => absorb o (G (base s) (upd (attr s) x (kept s t)) (kept s) (if allowed n then unwraps s else unwraps s ++ [x]) (drops s))
  | _ :: o => absorb o s
  end.
(* engine.py:5744-5912 _adoption_agency *)
Definition adopt (subject : str) (s : gst) : option gst :=
  let b := base s in
  match adoption_agency code_special code_boundary subject (St (stack b) (active b) (tags b) (next b) []) with
  | None => None
  | Some b => Some (absorb (ops b) (set_base b s))
  end.
(* engine.py:5692-5701 _remove_last_active_formatting_by_name *)
Definition remove_active (name : str) (s : gst) : gst :=
  match find_name name (List.length (active (base s))) (active (base s)) with Some i => set_active (retire i (active (base s))) s | None => s end.
(* engine.py:4427-4434 _find_open_index: not the first *)
Fixpoint open_index (name : str) (n : nat) (s : gst) : option nat :=
  match n with
  | S (S i as k) => match nth_error (stack (base s)) k with Some x => if str_eqb (fst (tags (base s) x)) name then Some k else open_index name k s | None => open_index name k s end
  | _ => None
  end.
(* engine.py:5703-5707 _remove_last_open_element_by_name *)
Definition remove_open (name : str) (s : gst) : gst :=
  match open_index name (List.length (stack (base s))) s with Some i => set_stack (delete i (stack (base s))) s | None => s end.
(* engine.py:5553-5564: an `a` (or nobr) in an `a` *)
Definition make_room (name : str) (s : gst) : option gst :=
  let clean := option_map (fun s => remove_open name (remove_active name s)) (adopt name s) in
  if str_eqb name (u "a") && match find_name name (List.length (active (base s))) (active (base s)) with Some _ => true | None => false end then clean
  else if str_eqb name (u "nobr") && match open_index name (List.length (stack (base s))) s with Some _ => true | None => false end then clean
  else Some s.

(* engine.py:5733-5741 *)
Fixpoint advance (in_template : bool) (k idx : nat) (s : gst) : option gst :=
  match nth_error (active (base s)) idx with
  | None => Some s
  | Some sl =>
    match k with
    | O => None
    | S k =>
      match sl with
      | None => None
      | Some e =>
        if negb (e_live e) then advance in_template k (S idx) s
        else
          let x := next (base s) in
          let s := insert_sanitized in_template (e_name e) (kept s (e_token e)) false (cur s) s in
          advance in_template k (S idx) (set_active (put idx (Some (Entry x (e_name e) (e_token e) true)) (active (base s))) s)
      end
    end
  end.
(* engine.py:5713-5742 _reconstruct_active_formatting *)
Definition reconstruct (in_template : bool) (s : gst) : option gst :=
  let l := active (base s) in
  match last_index (List.length l) l with
  | None => Some s
  | Some i => match nth_error l i with
              | Some (Some _) => advance in_template (List.length l) (rewind (S i) l (stack (base s))) s
              | _ => Some s
              end
  end.
(* engine.py:5588-5592 _FormattingEntry(name, node.attrs, node, ...) for the element just made *)
Definition list_entry (name : str) (s : gst) : gst :=
  let x := next (base s) - 1 in
  let s := set_active (active (base s) ++ [Some (Entry x name x true)]) s in
  G (base s) (attr s) (upd (kept s) x (attr s x)) (unwraps s) (drops s).
(* engine.py:5535-5599 _parse_formatting_start; the duplicates of 5571-5577 are retired by GRetire *)
Definition formatting_start (in_template recon compiled : bool) (name : str) (a : attrs) (s : gst) : option gst :=
  match make_room name s with
  | None => None
  | Some s =>
    match (if recon then reconstruct in_template s else Some s) with
    | None => None
    | Some s => Some (list_entry name (if compiled then insert_compiled name a s else insert_sanitized in_template name a false (cur s) s))
    end
  end.
(* engine.py:3306-3307, 3321-3322, 3650-3651, 3661-3662, 3673-3674: setdefault for each attribute *)
Fixpoint merge (old new : attrs) : attrs :=
  match new with [] => old | (k, v) :: new => merge (if AttrModel.has_key k old then old else old ++ [(k, v)]) new end.

Inductive gevent :=
| GStart (in_template recon : bool) (name src : str) (parent : nat)  (* 3557-4107: a start tag that is not a formatting element's, inserted *)
| GFast (name src : str)                                (* 3103-3557: the same in the compiled path *)
| GFormat (in_template recon compiled : bool) (name src : str) (* 3461-3474 and 3950-3958 *)
| GImplied (in_template : bool) (name : str)            (* 3000, 3086, 5130-5192, ...: an element without a tag: br, p, tbody, tr, colgroup *)
| GEnd (subject : str)                                  (* 2708, 3034: formatting end tag *)
| GRecon (in_template : bool)                           (* 2298-2305 and others: before text *)
| GStack (l : list nat)                                 (* elements are closed, or the stack is set *)
| GMarker | GClear | GRetire (x : nat)                  (* 5218-5236, 5571-5577 *)
| GMerge (x : nat) (src : str).                         (* a second html or body start tag; x is that element *)

Definition gstep (ev : gevent) (s : gst) : option gst :=
  match ev with
  | GStart in_template recon name src parent =>
    match read_attrs name src s with
    | None => None
    | Some (_, _, false) => Some s
    | Some (a, self, true) =>
      match (if recon then reconstruct in_template s else Some s) with
      | None => None
      | Some s => Some (insert_sanitized in_template name a self parent s)
      end
    end
  | GFast name src =>
    if foreign (tags (base s) (cur s)) then Some s   (* 3119-3122: this path is not taken *)
    else match AttrModel.parse_attrs_for_action strict strip (acts name) src with
         | None => None
         | Some (_, _, _, false) => Some s
         | Some (a, _, _, true) => Some (insert_compiled name a s)
         end
  | GFormat in_template recon compiled name src =>
    match read_attrs name src s with
    | None => None
    | Some (_, _, false) => Some s
    | Some (a, _, true) =>
      if in_strs name formatting_names && (html_text name s || breakout name a)
      then formatting_start in_template recon (compiled && negb (foreign (tags (base s) (cur s)))) name a s
      else Some s
    end
  | GImplied in_template name => Some (insert_sanitized in_template name [] false (cur s) s)
  | GEnd subject => adopt subject s
  | GRecon in_template => reconstruct in_template s
  | GStack l => Some (set_stack l s)
  | GMarker => Some (set_active (active (base s) ++ [None]) s)
  | GClear => Some (set_active (rev (clear_back (rev (active (base s))))) s)
  | GRetire x => match find_node x (List.length (active (base s))) (active (base s)) with Some i => Some (set_active (retire i (active (base s))) s) | None => Some s end
  | GMerge x src =>
    match AttrModel.parse_attrs_for_action strict strip (acts (fst (tags (base s) x))) src with
    | None => None
    | Some (_, _, _, false) => Some s
    | Some (a, _, _, true) => Some (G (base s) (upd (attr s) x (merge (attr s x) a)) (kept s) (unwraps s) (drops s))
    end
  end.
Fixpoint grun (evs : list gevent) (s : gst) : option gst := match evs with [] => Some s | e :: evs => match gstep e s with Some s => grun evs s | None => None end end.
End guard.
