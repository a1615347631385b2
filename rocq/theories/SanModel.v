(* MODEL: sanitizing a DOM tree (sanitizer/dom.py, sanitizer/policy.py, sanitizer/rawtext.py, and the transform pipeline compiled for a
   policy: transforms/compile.py, transforms/runtime.py). *)
From Verif Require Import Str SerializerModel UrlModel CssModel.
Open Scope N_scope.

(* dom/__init__.py: a dict of attributes is an association list in insertion order, with distinct keys. *)
Definition attr_list := list (str * option str).
Definition dict_has {A} (k : str) (l : list (str * A)) : bool := existsb (fun p => str_eqb k (fst p)) l.
Definition dict_set {A} (k : str) (v : A) (l : list (str * A)) : list (str * A) :=
  if dict_has k l then map (fun p => if str_eqb k (fst p) then (fst p, v) else p) l else (l ++ [(k, v)])%list.
Definition dict_pop {A} (k : str) (l : list (str * A)) : list (str * A) := filter (fun p => negb (str_eqb k (fst p))) l.

(* dom/__init__.py:573-660: the bookkeeping fields of a node.  [raw_start]/[raw_end]: the source text of the tags when it is known
   (transforms/runtime.py:124-149 _raw_tag_text, already sliced out of the source).  [mark]: the entry of this node in the walker's
   created_start_index dict (0: no entry); [icount]: its entry in document_comment_insert_count.  Both dicts are keyed by id(node) in
   the code; keying them by the node itself leaves out the reuse of an id after garbage collection. *)
Record info := Info { mark : nat; icount : nat; line : option N; col : option N; raw_start : option str; raw_end : option str;
                      start_known : bool; self_closing : bool; end_present : bool }.
Definition no_info := Info 0 0 None None None None false false false.

(* dom/__init__.py node classes.  [El]: an element (its name does not start with '#' and is not "!doctype"; tc: the children of
   template_content, for a Template).  [Fr]: a container with a '#' name (#document, #document-fragment).  The data of a doctype is not
   looked at. *)
Inductive node :=
| El (i : info) (name : str) (ns : option str) (attrs : attr_list) (ch : list node) (tc : option (list node))
| Tx (i : info) (data : str)
| Cm (i : info) (data : str)
| Pi (i : info) (data : str)
| Dt (i : info) (data : doctype_data)
| Fr (i : info) (name : str) (ch : list node).
Definition info_of (n : node) : info :=
  match n with El i _ _ _ _ _ => i | Tx i _ => i | Cm i _ => i | Pi i _ => i | Dt i _ => i | Fr i _ _ => i end.
Definition set_info (i : info) (n : node) : node :=
  match n with El _ a b c d e => El i a b c d e | Tx _ d => Tx i d | Cm _ d => Cm i d | Pi _ d => Pi i d | Dt _ d => Dt i d | Fr _ a b => Fr i a b end.
(* transforms/runtime.py:189-195 _mark_start *)
Definition mark_info (k : nat) (i : info) : info :=
  Info (Nat.max (mark i) k) (icount i) (line i) (col i) (raw_start i) (raw_end i) (start_known i) (self_closing i) (end_present i).
Definition mark_start (k : nat) (n : node) : node := set_info (mark_info k (info_of n)) n.

(* sanitizer/policy.py:125-216 SanitizationPolicy, after __post_init__; sets are lists *)
Inductive tag_handling := TUnwrap | TEscape | TDrop.
Inductive unsafe_mode := MStrip | MRaise | MCollect.
Record policy := Policy {
  allowed_tags : list str; allowed_attributes : list (str * list str); pol_url : url_policy; pol_drop_comments : bool; pol_drop_doctype : bool;
  drop_content_tags : list str; allowed_css : list str; force_link_rel : list str; unsafe_handling : unsafe_mode;
  disallowed_tag_handling : tag_handling; pol_strip_invisible : bool }.

(* A security finding (what is passed to SanitizationPolicy.handle_unsafe): the message and the position of the node. *)
Record finding := Finding { f_msg : str; f_line : option N; f_col : option N }.
Definition found (msg : str) (i : info) : finding := Finding msg (line i) (col i).

(* A computation in the pipeline: the value and the findings reported on the way, in order; or a Python exception; or the model ran
   out of fuel (excluded by theorem). *)
Inductive res (A : Type) := Ok (a : A) (fs : list finding) | Exc | OutOfFuel.
Arguments Ok {A}. Arguments Exc {A}. Arguments OutOfFuel {A}.
Definition bind {A B} (x : res A) (f : A -> res B) : res B :=
  match x with
  | Ok a fs => match f a with Ok b gs => Ok b (fs ++ gs)%list | Exc => Exc | OutOfFuel => OutOfFuel end
  | Exc => Exc
  | OutOfFuel => OutOfFuel
  end.

(* ---------------- attributes ---------------- *)
(* transforms/compile.py:341-352: "rel" is added to the allowed attributes of "a" when force_link_rel is used *)
Definition effective_allowed (p : policy) : list (str * list str) :=
  match force_link_rel p with
  | [] => allowed_attributes p
  | _ => let a := match assoc (u "a") (allowed_attributes p) with Some l => l | None => [] end in
         let g := match assoc [42] (allowed_attributes p) with Some l => l | None => [] end in
         if negb (in_strs (u "rel") a) && negb (in_strs (u "rel") g)
         then dict_set (u "a") (u "rel" :: a) (allowed_attributes p) else allowed_attributes p
  end.
(* transforms/compile.py:737-765: the set of attributes allowed on [tag].  (tag.islower(): then tag.lower() is tag.) *)
Definition allowed_for (l : list (str * list str)) (tag : str) : list str :=
  let g := match assoc [42] l with Some x => x | None => [] end in
  let by_tag t := if str_eqb t [42] then None else option_map (app g) (assoc t l) in
  match by_tag tag with
  | Some x => x
  | None => match by_tag (lower tag) with Some x => x | None => g end
  end.
(* transforms/compile.py:776-797, the loop over the attributes *)
Fixpoint allowlist_loop (i : info) (allowed : list str) (attrs : attr_list) (out : attr_list) (changed : bool) : attr_list * bool * list finding :=
  match attrs with
  | [] => (out, changed, [])
  | (k, v) :: r =>
    match strip k with
    | [] => allowlist_loop i allowed r out true
    | _ =>
      if in_strs k allowed then allowlist_loop i allowed r (dict_set k v out) changed
      else if in_strs (lower k) allowed then allowlist_loop i allowed r (dict_set (lower k) v out) true
      else let '(o, c, f) := allowlist_loop i allowed r out true in
           (o, c, found (u "Unsafe attribute '" ++ lower k ++ u "' (not allowed)") i :: f)
    end
  end%list.
(* transforms/compile.py:745-801 _allowlist_attrs *)
Definition allowlist_attrs (p : policy) (i : info) (name : str) (attrs : attr_list) : res attr_list :=
  let allowed := allowed_for (effective_allowed p) name in
  if forallb (fun kv => match fst kv with [] => false | k => in_strs k allowed end) attrs then Ok attrs []
  else let '(out, changed, fs) := allowlist_loop i allowed attrs [] false in Ok (if changed then out else attrs) fs.

(* sanitizer/url/spec.py:43-83 _URL_SINKS: (kind, tag, attr, guard) *)
Definition url_sinks : list (sink_kind * str * str * option (str * list str)) :=
  let any k a := (k, u "*", u a, None) in
  [any KUrl "href"; any KUrl "icon"; any KUrl "dynsrc"; any KUrl "lowsrc"; any KUrl "src"; any KSrcset "srcset"; any KSrcset "imagesrcset";
   any KUrl "poster"; any KUrl "action"; any KUrl "formaction"; any KUrl "data"; any KUrl "cite"; any KUrl "background"; any KUrl "classid";
   any KUrl "code"; any KUrl "codebase"; any KUrl "longdesc"; any KUrl "manifest"; any KUrl "object"; any KCommaList "profile";
   any KUrl "usemap"; any KCommaList "archive"; any KSpaceList "ping"; any KSpaceList "attributionsrc";
   (KMetaRefresh, u "meta", u "content", Some (u "http-equiv", [u "refresh"]));
   (KUrl, u "param", u "value",
      Some (u "name", [u "code"; u "codebase"; u "data"; u "filename"; u "href"; u "movie"; u "src"; u "url"]))]%string.
(* url/spec.py:88 _URL_SINK_ATTRS *)
Definition is_sink_attr (a : str) : bool := existsb (fun s => str_eqb a (snd (fst s))) url_sinks.
(* url/spec.py:96-102, the loop over the attributes *)
Fixpoint guard_holds (g : str) (vals : list str) (attrs : attr_list) : bool :=
  match attrs with
  | [] => false
  | (k, Some v) :: r => if str_eqb (lower k) g then in_strs (lower (strip v)) vals else guard_holds g vals r
  | (_, None) :: r => guard_holds g vals r
  end.
(* url/spec.py:91-103 _url_sink_kind_for_attr *)
Fixpoint sink_kind_in (sinks : list (sink_kind * str * str * option (str * list str))) (tag attr : str) (attrs : attr_list) : option sink_kind :=
  match sinks with
  | [] => None
  | (k, t, a, g) :: r =>
    if str_eqb attr a && (str_eqb t [42] || str_eqb t tag) then
      match g with
      | None => Some k
      | Some (ga, vals) => if guard_holds ga vals attrs then Some k else sink_kind_in r tag attr attrs
      end
    else sink_kind_in r tag attr attrs
  end.
Definition sink_kind_for (tag attr : str) (attrs : attr_list) : option sink_kind := sink_kind_in url_sinks tag attr attrs.
(* transforms/compile.py:842 the rule of an attribute *)
Definition rule_for (p : url_policy) (tag attr : str) : option url_rule :=
  match get_rule tag attr (allow_rules p) with Some r => Some r | None => get_rule [42] attr (allow_rules p) end.

(* transforms/compile.py:840-888: what happens to one attribute.  Untouched; removed (with a finding); or given the sanitized value
   under its lower-cased name. *)
Inductive url_verdict := VLeave | VDrop (msg : str) | VSet (s : str) | VErr.
Definition url_attr (py : urllib) (up : url_policy) (tag : str) (attrs : attr_list) (key : str) (value : option str) : url_verdict :=
  let k := lower key in
  let rule := rule_for up tag k in
  if negb (is_sink_attr k) && (match rule with None => true | Some _ => false end) then VLeave else
  match (if is_sink_attr k then sink_kind_for tag k attrs else Some KUrl) with
  | None => VLeave
  | Some kind =>
    match value, rule with
    | None, _ => VDrop (u "Unsafe URL in attribute '" ++ k ++ u "'")%list
    | Some _, None => VDrop (u "Unsafe URL in attribute '" ++ k ++ u "' (no rule)")%list
    | Some v, Some r =>
      match sanitize_sink py up r tag k kind v with
      | Drop => VDrop (u "Unsafe URL in attribute '" ++ k ++ u "'")%list
      | Keep s => VSet s
      | Err => VErr
      end
    end
  end.
(* transforms/compile.py:840-888, the loop: the keys to drop, the values to set, the findings; None: exception *)
Fixpoint url_loop (py : urllib) (up : url_policy) (tag : str) (i : info) (all l : attr_list) (to_drop : list str) (to_set : list (str * str))
  : option (list str * list (str * str) * list finding) :=
  match l with
  | [] => Some (to_drop, to_set, [])
  | (key, value) :: r =>
    match url_attr py up tag all key value with
    | VErr => None
    | VLeave => url_loop py up tag i all r to_drop to_set
    | VDrop msg =>
      match url_loop py up tag i all r (to_drop ++ [key])%list to_set with
      | Some (d, s, f) => Some (d, s, found msg i :: f)
      | None => None
      end
    | VSet s =>
      if negb (str_eqb key (lower key)) then url_loop py up tag i all r (to_drop ++ [key])%list (dict_set (lower key) s to_set)
      else if match value with Some v => negb (str_eqb v s) | None => false end
           then url_loop py up tag i all r to_drop (dict_set key s to_set)
           else url_loop py up tag i all r to_drop to_set
    end
  end.
(* transforms/compile.py:822-905 _drop_url_attrs *)
Definition drop_url_attrs (py : urllib) (up : url_policy) (i : info) (name : str) (attrs : attr_list) : res attr_list :=
  match url_loop py up (lower name) i attrs attrs [] [] with
  | None => Exc
  | Some (to_drop, to_set, fs) =>
    Ok (fold_left (fun o kv => dict_set (fst kv) (Some (snd kv)) o) to_set (fold_left (fun o k => dict_pop k o) to_drop attrs)) fs
  end.

(* transforms/compile.py:924-985 _allow_style_attrs *)
Definition style_finding (i : info) : finding := found (u "Unsafe inline style in attribute 'style'") i.
Definition allow_style_attrs (py : urllib) (p : policy) (i : info) (name : str) (attrs : attr_list) : res attr_list :=
  match List.find (fun kv => str_eqb (lower (fst kv)) (u "style")) attrs with
  | None => Ok attrs []
  | Some (k, None) => Ok (dict_pop k attrs) [style_finding i]
  | Some (k, Some v) =>
    match sanitize_inline_style py (allowed_css p) v (lower name) (Some (pol_url p)) with
    | Err => Exc
    | Drop => Ok (dict_pop k attrs) [style_finding i]
    | Keep s => if str_eqb k (u "style") && str_eqb v s then Ok attrs []
                else Ok (dict_set (u "style") (Some s) (if str_eqb k (u "style") then attrs else dict_pop k attrs)) []
    end
  end.

(* transforms/runtime.py:505-512: the tokens of the attribute *)
Definition add_token (l : list str) (t : str) : list str := if in_strs t l then l else (l ++ [t])%list.
Definition rel_tokens (attrs : attr_list) : list str :=
  fold_left (fun acc kv =>
    if str_eqb (lower (fst kv)) (u "rel") then
      match snd kv with
      | Some v => fold_left (fun acc t => match lower (strip t) with [] => acc | t2 => add_token acc t2 end) (split_ws v) acc
      | None => acc
      end
    else acc) attrs [].
(* transforms/runtime.py:497-540 merge_attr_tokens, for tag "a" and attribute "rel" (compile.py:378-386).  No finding is reported.
   The tokens of the policy are taken in the order of the list (the code sorts them). *)
Definition merge_rel (tokens : list str) (name : str) (attrs : attr_list) : attr_list :=
  if negb (str_eqb (lower name) (u "a")) then attrs else
  let keys := filter (fun k => str_eqb (lower k) (u "rel")) (map fst attrs) in
  let existing := rel_tokens attrs in
  let all := fold_left add_token tokens existing in
  let normalized := join [32] all in
  let changed_rel := negb (forallb (fun t => in_strs t existing) tokens) in
  let mixed := match keys with [] => false | [k] => negb (str_eqb k (u "rel")) | _ => true end in
  let same := match assoc (u "rel") attrs with Some (Some v) => str_eqb v normalized | _ => false end in
  if changed_rel || mixed || negb same
  then dict_set (u "rel") (Some normalized) (fold_left (fun o k => if str_eqb k (u "rel") then o else dict_pop k o) keys attrs)
  else attrs.

(* transforms/runtime.py:655-681: strip_invisible_unicode on the attributes of an element *)
Definition strip_value (v : option str) : option str := option_map strip_invisible v.
Definition strip_attrs (i : info) (attrs : attr_list) : attr_list * list finding :=
  let changed := filter (fun kv => match snd kv with Some v => negb (str_eqb (strip_invisible v) v) | None => false end) attrs in
  (map (fun kv => (fst kv, strip_value (snd kv))) attrs,
   match changed with
   | [] => []
   | _ => [found (u "Stripped invisible Unicode from attribute(s): " ++ join (u ", ") (map fst changed))%list i]
   end).

(* ---------------- the pipeline ---------------- *)
(* transforms/compile.py:354-425: the walk transforms of a policy, in order; their indices are the positions in this list *)
Inductive wt := WForeign | WDecide | WStrip | WAttrs | WMerge | WComments | WDoctype.
Definition pipeline (p : policy) : list wt :=
  ([WForeign; WDecide]
   ++ (if pol_strip_invisible p then [WStrip] else [])
   ++ [WAttrs]
   ++ (match force_link_rel p with [] => [] | _ => [WMerge] end)
   ++ (if pol_drop_comments p then [WComments] else [])
   ++ (if pol_drop_doctype p then [WDoctype] else []))%list.

(* transforms/__init__.py:83 _FOREIGN_ROOT_TAGS; runtime.py:403-413 node_foreign_context *)
Definition html_or_none (ns : option str) : bool := match ns with None => true | Some s => str_eqb s (u "html") end.
Definition foreign_here (n : node) : bool :=
  match n with
  | El _ name ns _ _ _ => negb (html_or_none ns) || in_strs (lower name) [u "math"; u "svg"]
  | _ => false
  end.
(* transforms/runtime.py:435-451: a foreign script or style without an end tag somewhere inside *)
Fixpoint unclosed_foreign (n : node) : bool :=
  match n with
  | El i name ns _ ch _ =>
      (negb (html_or_none ns) && in_strs name [u "script"; u "style"] && negb (end_present i)) || existsb unclosed_foreign ch
  | Fr _ _ ch => existsb unclosed_foreign ch
  | _ => false
  end.

(* transforms/runtime.py:151-178 _reconstruct_start_tag, _reconstruct_end_tag; the outer None: ValueError (invalid name) *)
Definition reconstruct_start (i : info) (name : str) (ns : option str) (attrs : attr_list) : option (option str) :=
  match serialize_start_tag default_opts ns name attrs with
  | None => None
  | Some t => Some (Some (if self_closing i then (removelast t ++ u "/>")%list else t))
  end.
Definition reconstruct_end (i : info) (name : str) : option (option str) :=
  if self_closing i then Some None
  else if negb (end_present i) && negb (negb (start_known i) && in_strs name [u "body"; u "html"]) then Some None
  else if in_strs (lower name) void_elements then Some None
  else match serialize_end_tag name with None => None | Some t => Some (Some t) end.
Definition opt_text (k : nat) (t : option str) : list node :=
  match t with Some (c :: r) => [Tx (mark_info k no_info) (c :: r)] | _ => [] end.
(* transforms/runtime.py:262-276 _detach_children_for_hoist (and 217-228): children, then template contents *)
Definition hoisted (k : nat) (ch : list node) (tc : option (list node)) : list node :=
  map (mark_start k) (ch ++ match tc with Some l => l | None => [] end)%list.
(* transforms/runtime.py:197-248 _escape_node *)
Definition escape_node (k : nat) (i : info) (name : str) (ns : option str) (attrs : attr_list) (ch : list node) (tc : option (list node))
  : option (list node) :=
  match (match raw_start i with Some s => Some (Some s) | None => reconstruct_start i name ns attrs end) with
  | None => None
  | Some s =>
    match (match raw_end i with Some e => Some (Some e) | None => reconstruct_end i name end) with
    | None => None
    | Some e => Some (opt_text k s ++ hoisted k ch tc ++ opt_text k e)%list
    end
  end.

(* What one pass of the transforms over children[i] does: the node stays (possibly edited); it is removed; it and all later siblings are
   removed; it is replaced; a comment is escaped to text. *)
Inductive outc := Stay (n : node) | Gone | GoneAll | Repl (l : list node) | EscComment (t : node).

Section Walk.
Variable py : urllib.
Variable p : policy.

(* transforms/compile.py:308-339 _sanitize_node_decision and runtime.py:456-481, 278-314 (DecideAction.KEEP: None) *)
Definition decide (idx : nat) (i : info) (name : str) (ns : option str) (attrs : attr_list) (ch : list node) (tc : option (list node)) : option (res outc) :=
  let tag := lower name in
  if in_strs tag (allowed_tags p) then None
  else if in_strs tag (drop_content_tags p)
  then Some (Ok Gone [found (u "Unsafe tag '" ++ tag ++ u "' (dropped content)")%list i])
  else
    let f := [found (u "Unsafe tag '" ++ tag ++ u "' (not allowed)")%list i] in
    Some match disallowed_tag_handling p with
         | TDrop => Ok Gone f
         | TUnwrap => match hoisted idx ch tc with [] => Ok Gone f | l => Ok (Repl l) f end
         | TEscape => match escape_node idx i name ns attrs ch tc with None => Exc | Some l => Ok (Repl l) f end
         end.

(* transforms/runtime.py:483-495 edit_attrs_chain with the functions of compile.py:366-386 *)
Definition edit_attrs (i : info) (name : str) (attrs : attr_list) : res attr_list :=
  bind (allowlist_attrs p i name attrs) (fun a =>
  bind (drop_url_attrs py (pol_url p) i name a) (fun a =>
  match allowed_css p with [] => Ok a [] | _ => allow_style_attrs py p i name a end)).

(* transforms/runtime.py:421-697: the transforms [ts] (the first has index [idx]) applied to node [n]; [nf]: node_foreign_context *)
Fixpoint run (idx : nat) (ts : list wt) (nf : bool) (n : node) : res outc :=
  match ts with
  | [] => Ok (Stay n) []
  | t :: r =>
    match t, n with
    | WForeign, El i name _ _ _ _ =>
        if nf then Ok (if unclosed_foreign n then GoneAll else Gone) [found (u "Unsafe tag '" ++ lower name ++ u "' (foreign namespace)")%list i]
        else run (S idx) r nf n
    | WDecide, El i name ns attrs ch tc =>
        match decide idx i name ns attrs ch tc with Some o => o | None => run (S idx) r nf n end
    | WStrip, Tx i d =>
        let d' := strip_invisible d in
        if str_eqb d' d then run (S idx) r nf n
        else bind (Ok tt [found (u "Stripped invisible Unicode from text node") i]) (fun _ => run (S idx) r nf (Tx i d'))
    | WStrip, El i name ns attrs ch tc =>
        let '(a, fs) := strip_attrs i attrs in bind (Ok tt fs) (fun _ => run (S idx) r nf (El i name ns a ch tc))
    | WAttrs, El i name ns attrs ch tc =>
        bind (edit_attrs i name attrs) (fun a => run (S idx) r nf (El i name ns a ch tc))
    | WMerge, El i name ns attrs ch tc => run (S idx) r nf (El i name ns (merge_rel (force_link_rel p) name attrs) ch tc)
    | WComments, Cm i d | WComments, Pi i d =>
        match disallowed_tag_handling p with
        | TEscape => Ok (EscComment (Tx (mark_info (S idx) no_info) (u "<!--" ++ d ++ u "-->"))) []
        | _ => Ok Gone [found (u "Dropped comment") i]
        end
    | WDoctype, Dt i _ => Ok Gone [found (u "Dropped doctype") i]
    | _, _ => run (S idx) r nf n
    end
  end%list.

(* transforms/runtime.py:548-568: insert an escaped comment into the body of the document *)
Definition insert_into_body (t : node) (n : node) : option node :=
  match n with
  | El i name ns attrs ch tc =>
    if str_eqb name (u "body") then
      Some (El (Info (mark i) (S (icount i)) (line i) (col i) (raw_start i) (raw_end i) (start_known i) (self_closing i) (end_present i))
               name ns attrs (firstn (icount i) ch ++ t :: skipn (icount i) ch)%list tc)
    else None
  | _ => None
  end.
Fixpoint insert_first (f : node -> option node) (l : list node) : option (list node) :=
  match l with
  | [] => None
  | n :: r => match f n with Some n' => Some (n' :: r) | None => option_map (cons n) (insert_first f r) end
  end.
Definition insert_html (t : node) (n : node) : option node :=
  match n with
  | El i name ns attrs ch tc =>
    if str_eqb name (u "html") then option_map (fun ch' => El i name ns attrs ch' tc) (insert_first (insert_into_body t) ch) else None
  | _ => None
  end.

(* transforms/runtime.py:371-905 apply_to_children.  The explicit stack of the code is the recursion of the model: [pending] are
   children[i:] of the frame, [done] are children[:i]; [doc]: the parent is a #document; [ctx]: its foreign_context.  The children of a
   kept node are walked before its template contents, both before its later siblings. *)
Fixpoint walk (fuel : nat) (doc ctx : bool) (done pending : list node) : res (list node) :=
  match fuel with
  | O => OutOfFuel
  | S k =>
    match pending with
    | [] => Ok done []
    | n :: rest =>
      let nf := ctx || foreign_here n in
      bind (run (mark (info_of n)) (skipn (mark (info_of n)) (pipeline p)) nf n) (fun o =>
      match o with
      | Gone => walk k doc ctx done rest
      | GoneAll => walk k doc ctx done []
      | Repl l => walk k doc ctx done (l ++ rest)%list
      | EscComment t =>
          match (if doc then insert_first (insert_html t) done else None) with
          | Some done' => walk k doc ctx done' rest
          | None =>
            match (if doc then insert_first (insert_html t) rest else None) with
            | Some rest' => walk k doc ctx done rest'
            | None => walk k doc ctx done (t :: rest)
            end
          end
      | Stay n' =>
          match n' with
          | El i name ns attrs ch tc =>
              bind (walk k false nf [] ch) (fun ch' =>
              bind (match tc with
                    | None => Ok None []
                    | Some l => bind (walk k false nf [] l) (fun l' => Ok (Some l') [])
                    end) (fun tc' =>
              walk k doc ctx (done ++ [El i name ns attrs ch' tc'])%list rest))
          | Fr i name ch =>
              bind (walk k (str_eqb name (u "#document")) nf [] ch) (fun ch' => walk k doc ctx (done ++ [Fr i name ch'])%list rest)
          | _ => walk k doc ctx (done ++ [n'])%list rest
          end
      end)
    end
  end.

(* ---------------- rawtext hardening ---------------- *)
Definition mapM {A B} (f : A -> res B) : list A -> res (list B) :=
  fix go l :=
  match l with
  | [] => Ok [] []
  | a :: r => bind (f a) (fun b => bind (go r) (fun bs => Ok (b :: bs) []))
  end.
Definition is_text (n : node) : bool := match n with Tx _ _ => true | _ => false end.
Definition text_data (n : node) : str := match n with Tx _ d => d | _ => [] end.
(* sanitizer/rawtext.py:60-113: the children of a script or style element *)
Definition harden_children (name : str) (ch : list node) : res (list node) :=
  let fs := map (fun c => found (u "Unsafe non-text child inside <" ++ name ++ u "> was dropped")%list (info_of c)) (filter (fun c => negb (is_text c)) ch) in
  bind (Ok tt fs) (fun _ =>
  match filter is_text ch with
  | [] => Ok [] []
  | first :: more =>
    let combined := List.concat (map text_data (first :: more)) in
    match neutralize_opt combined name with
    | None => OutOfFuel
    | Some (text, changed) =>
      bind (if changed
            then Ok (match text with [] => [] | _ => [Tx (info_of first) text] end)
                    [found (u "Unsafe raw text inside <" ++ name ++ u "> contains a closing tag sequence")%list (info_of first)]
            else Ok (first :: more) []) (fun kept =>
      if str_eqb name (u "style") && (match text with [] => false | _ => true end) && disallowed_functions text false
      then Ok [] [found (u "Unsafe CSS inside <style> contains resource-loading constructs") (info_of first)]
      else Ok kept [])
    end
  end).
(* sanitizer/rawtext.py:43-122 _sanitize_rawtext_element_contents; template contents come before the children *)
Fixpoint harden (n : node) : res node :=
  match n with
  | El i name ns attrs ch tc =>
    if in_strs (lower name) [u "script"; u "style"]
    then match ch with
         | [] => Ok n []
         | _ => bind (harden_children (lower name) ch) (fun ch' => Ok (El i name ns attrs ch' tc) [])
         end
    else bind (match tc with
               | None => Ok None []
               | Some l => bind (mapM harden l) (fun l' => Ok (Some l') [])
               end) (fun tc' =>
         bind (mapM harden ch) (fun ch' => Ok (El i name ns attrs ch' tc') []))
  | Fr i name ch => bind (mapM harden ch) (fun ch' => Ok (Fr i name ch') [])
  | _ => Ok n []
  end.

(* the fuel the walk needs *)
Fixpoint weight (n : node) : nat :=
  match n with
  | El _ _ _ _ ch tc => (4 + fold_right (fun c a => weight c + a) 0 ch + match tc with Some l => fold_right (fun c a => weight c + a) 0 l | None => 0 end)%nat
  | Tx _ _ => 1%nat
  | Fr _ _ ch => (2 + fold_right (fun c a => weight c + a) 0 ch)%nat
  | _ => 2%nat
  end.
Definition weights (l : list node) : nat := fold_right (fun c a => (weight c + a)%nat) 0%nat l.

(* The walk starts with empty created_start_index and document_comment_insert_count dicts (runtime.py:186-187). *)
Fixpoint fresh (n : node) : node :=
  let fi i := Info 0 0 (line i) (col i) (raw_start i) (raw_end i) (start_known i) (self_closing i) (end_present i) in
  match n with
  | El i a b c ch tc => El (fi i) a b c (map fresh ch) (option_map (map fresh) tc)
  | Fr i a ch => Fr (fi i) a (map fresh ch)
  | Tx i d => Tx (fi i) d
  | Cm i d => Cm (fi i) d
  | Pi i d => Pi (fi i) d
  | Dt i d => Dt (fi i) d
  end.

(* runtime.py:71-78, 967-1046 apply_compiled_transforms on the children of a document or fragment, with the transforms of a policy *)
Definition apply_children (doc : bool) (ch : list node) : res (list node) :=
  let ch := map fresh ch in
  bind (walk (S (weights ch)) doc false [] ch) (fun out =>
  let out := map fresh out in
  if existsb (fun t => in_strs t [u "script"; u "style"]) (allowed_tags p) then mapM harden out else Ok out []).

(* sanitizer/dom.py:61-91 _apply_policy_to_root *)
Definition apply_policy_to_root (n : node) : res node :=
  match n with
  | Fr i name ch => bind (apply_children (str_eqb name (u "#document")) ch) (fun ch' => Ok (Fr i name ch') [])
  | _ => bind (apply_children false [n]) (fun ch' =>
         match ch' with [only] => Ok only [] | _ => Ok (Fr no_info (u "#document-fragment") ch') [] end)
  end.
End Walk.
