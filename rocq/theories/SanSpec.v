(* SPECIFICATION for sanitized trees.  Uses the node and policy types of SanModel.v, and sanitize_sink / sanitize_inline_style (whose
   outputs are the subject of C12-C21) to say that a value was checked; nothing of the pipeline. *)
From Verif Require Import Str RawTextSpec UrlModel CssModel SanModel.
Open Scope N_scope.

(* [inside x t]: x is t or a descendant of t (template contents included) *)
Inductive inside (x : node) : node -> Prop :=
| in_self : inside x x
| in_child i name ns attrs ch tc c : In c ch -> inside x c -> inside x (El i name ns attrs ch tc)
| in_template i name ns attrs ch l c : In c l -> inside x c -> inside x (El i name ns attrs ch (Some l))
| in_frag i name ch c : In c ch -> inside x c -> inside x (Fr i name ch).

(* the same, template contents not included *)
Inductive inside_children (x : node) : node -> Prop :=
| ic_self : inside_children x x
| ic_child i name ns attrs ch tc c : In c ch -> inside_children x c -> inside_children x (El i name ns attrs ch tc)
| ic_frag i name ch c : In c ch -> inside_children x c -> inside_children x (Fr i name ch).

(* inside, and not in template contents of a script or style element (which has none: only template elements have) *)
Inductive inside_markup (x : node) : node -> Prop :=
| im_self : inside_markup x x
| im_child i name ns attrs ch tc c : In c ch -> inside_markup x c -> inside_markup x (El i name ns attrs ch tc)
| im_template i name ns attrs ch l c : lower name <> u "script" -> lower name <> u "style" -> In c l -> inside_markup x c ->
    inside_markup x (El i name ns attrs ch (Some l))
| im_frag i name ch c : In c ch -> inside_markup x c -> inside_markup x (Fr i name ch).
(* attributes the policy allows on an element *)
Definition attr_allowed (p : policy) (name k : str) : Prop :=
  (exists t l, (t = u "*" \/ t = name \/ t = lower name) /\ In (t, l) (allowed_attributes p) /\ In k l) \/
  (k = u "rel" /\ lower name = u "a" /\ force_link_rel p <> []).

(* attributes whose value is always a URL, or several *)
Definition url_attributes : list (str * sink_kind) :=
  map (fun s => (u s, KUrl)) ["href"; "icon"; "dynsrc"; "lowsrc"; "src"; "poster"; "action"; "formaction"; "data"; "cite"; "background"; "classid";
                              "code"; "codebase"; "longdesc"; "manifest"; "object"; "usemap"]%string ++
  map (fun s => (u s, KSrcset)) ["srcset"; "imagesrcset"]%string ++
  map (fun s => (u s, KCommaList)) ["profile"; "archive"]%string ++
  map (fun s => (u s, KSpaceList)) ["ping"; "attributionsrc"]%string.
(* attributes that hold a URL when another attribute has certain values: (element, attribute, kind, other attribute, values) *)
Definition guarded_url_attributes : list (str * str * sink_kind * str * list str) :=
  [(u "meta", u "content", KMetaRefresh, u "http-equiv", [u "refresh"]);
   (u "param", u "value", KUrl, u "name", map u ["code"; "codebase"; "data"; "filename"; "href"; "movie"; "src"; "url"]%string)].
(* the value went through the check of a rule for this attribute *)
Definition url_checked (py : urllib) (p : policy) (name k : str) (kind : sink_kind) (v : str) : Prop :=
  exists t r raw, (t = lower name \/ t = u "*") /\ In (t, k, r) (allow_rules (pol_url p)) /\
                  sanitize_sink py (pol_url p) r (lower name) k kind raw = Keep v.
Definition style_checked (py : urllib) (p : policy) (name v : str) : Prop :=
  exists raw, sanitize_inline_style py (allowed_css p) raw (lower name) (Some (pol_url p)) = Keep v.

(* What SanitizationPolicy.__post_init__ guarantees: lower-case attribute names, "style" only with allowed CSS properties. *)
Definition valid_policy (p : policy) : Prop :=
  (forall t l k, In (t, l) (allowed_attributes p) -> In k l -> lower k = k) /\
  (forall t l, In (t, l) (allowed_attributes p) -> In (u "style") l -> allowed_css p <> []).

(* The attributes of an element are a dict: no key twice. *)
Definition dict_tree (n : node) : Prop :=
  forall i name ns attrs ch tc, inside (El i name ns attrs ch tc) n -> NoDup (map fst attrs).

Definition foreign (name : str) (ns : option str) : Prop :=
  (exists s, ns = Some s /\ s <> u "html") \/ lower name = u "svg" \/ lower name = u "math".

(* An element whose content must not survive: not allowed, and listed in drop_content_tags. *)
Definition content_dropped (p : policy) (name : str) : Prop := ~ In (lower name) (allowed_tags p) /\ In (lower name) (drop_content_tags p).
(* A foreign (SVG or MathML) script or style element without end tag: what follows it in the source was swallowed by it. *)
Definition unclosed_inside (n : node) : Prop :=
  exists i name s attrs ch tc, inside_children (El i name (Some s) attrs ch tc) n /\ s <> u "html" /\ (name = u "script" \/ name = u "style") /\ end_present i = false.
(* Two trees that differ only in the attributes and the contents of such elements.  (Replaced contents may not hide or reveal an
   unclosed foreign script or style element.) *)
Inductive same_outside (p : policy) : node -> node -> Prop :=
| so_same n : same_outside p n n
| so_dropped i name ns attrs attrs' ch ch' tc tc' : content_dropped p name ->
    (unclosed_inside (El i name ns attrs ch tc) <-> unclosed_inside (El i name ns attrs' ch' tc')) ->
    same_outside p (El i name ns attrs ch tc) (El i name ns attrs' ch' tc')
| so_el i name ns attrs ch ch' tc tc' : same_outside_list p ch ch' -> same_outside_opt p tc tc' ->
    same_outside p (El i name ns attrs ch tc) (El i name ns attrs ch' tc')
| so_fr i name ch ch' : same_outside_list p ch ch' -> same_outside p (Fr i name ch) (Fr i name ch')
with same_outside_list (p : policy) : list node -> list node -> Prop :=
| so_nil : same_outside_list p [] []
| so_cons n n' l l' : same_outside p n n' -> same_outside_list p l l' -> same_outside_list p (n :: l) (n' :: l')
with same_outside_opt (p : policy) : option (list node) -> option (list node) -> Prop :=
| so_none : same_outside_opt p None None
| so_some l l' : same_outside_list p l l' -> same_outside_opt p (Some l) (Some l').

(* The text of a tree, in document order (template contents after the children). *)
Fixpoint text_of (n : node) : str :=
  match n with
  | Tx _ d => d
  | El _ _ _ _ ch tc => List.concat (map text_of ch) ++ match tc with Some l => List.concat (map text_of l) | None => [] end
  | Fr _ _ ch => List.concat (map text_of ch)
  | _ => []
  end%list.
(* [subseq a b]: a is b with some characters left out. *)
Inductive subseq : str -> str -> Prop :=
| ss_nil : subseq [] []
| ss_keep c a b : subseq a b -> subseq (c :: a) (c :: b)
| ss_skip c a b : subseq a b -> subseq a (c :: b).

(* ---- which nodes are kept, when foreign elements play no role and handling is not "escape" ---- *)
(* forget attributes and bookkeeping *)
Fixpoint erase (n : node) : node :=
  match n with
  | El _ name ns _ ch tc => El no_info name ns [] (map erase ch) (option_map (map erase) tc)
  | Fr _ name ch => Fr no_info name (map erase ch)
  | Tx _ d => Tx no_info d
  | Cm _ d => Cm no_info d
  | Pi _ d => Pi no_info d
  | Dt _ d => Dt no_info d
  end.
(* Allowed elements stay, with what is kept of their contents; a disallowed element is replaced by what is kept of its contents, or removed
   if its contents are to be dropped. *)
Fixpoint kept_nodes (p : policy) (n : node) : list node :=
  match n with
  | El _ name ns _ ch tc =>
    if in_strs (lower name) (allowed_tags p) then [El no_info name ns [] (flat_map (kept_nodes p) ch) (option_map (flat_map (kept_nodes p)) tc)]
    else if in_strs (lower name) (drop_content_tags p) then []
    else match disallowed_tag_handling p with
         | TDrop => []
         | _ => flat_map (kept_nodes p) ch ++ match tc with Some l => flat_map (kept_nodes p) l | None => [] end
         end
  | Fr _ name ch => [Fr no_info name (flat_map (kept_nodes p) ch)]
  | Tx _ d => [Tx no_info (if pol_strip_invisible p then strip_invisible d else d)]
  | Cm _ d => if pol_drop_comments p then [] else [Cm no_info d]
  | Pi _ d => if pol_drop_comments p then [] else [Pi no_info d]
  | Dt _ d => if pol_drop_doctype p then [] else [Dt no_info d]
  end%list.
(* The root of the result: a document or fragment stays; one node stays alone; otherwise a new fragment. *)
Definition kept_root (p : policy) (n : node) : node :=
  match kept_nodes p n with [x] => x | l => Fr no_info (u "#document-fragment") l end.

(* A policy's tables are dicts, and attribute names in it are not empty (SanitizationPolicy.__post_init__ leaves such names out). *)
Definition dict_policy (p : policy) : Prop :=
  NoDup (map fst (allowed_attributes p)) /\ NoDup (map fst (allow_rules (pol_url p))) /\
  (forall t l k, In (t, l) (allowed_attributes p) -> In k l -> k <> []).

(* ---- already clean trees ---- *)
(* The rule for an attribute: the one for its element, else the one for any element. *)
Definition rule_of (p : policy) (name k : str) (r : url_rule) : Prop :=
  In (lower name, k, r) (allow_rules (pol_url p)) \/
  (forall r', ~ In (lower name, k, r') (allow_rules (pol_url p))) /\ In (u "*", k, r) (allow_rules (pol_url p)).
(* The value of attribute k must pass the URL check of this kind: a URL attribute, a guarded one whose guard holds, or any other
   attribute for which the policy has a URL rule. *)
Inductive url_kind (p : policy) (name : str) (attrs : attr_list) (k : str) : sink_kind -> Prop :=
| uk_always kind : In (k, kind) url_attributes -> url_kind p name attrs k kind
| uk_guarded kind g vals hv : In (lower name, k, kind, g, vals) guarded_url_attributes -> In (g, Some hv) attrs -> In (lower (strip hv)) vals ->
    url_kind p name attrs k kind
| uk_rule r : (forall kind, ~ In (k, kind) url_attributes) -> k <> u "content" -> k <> u "value" -> rule_of p name k r -> url_kind p name attrs k KUrl.
Definition clean_attr (py : urllib) (p : policy) (name : str) (attrs : attr_list) (k : str) (v : option str) : Prop :=
  ((exists t l, (t = u "*" \/ t = name) /\ In (t, l) (allowed_attributes p) /\ In k l) \/ (k = u "rel" /\ name = u "a" /\ force_link_rel p <> [])) /\
  (pol_strip_invisible p = true -> forall s, v = Some s -> strip_invisible s = s) /\
  (forall kind, url_kind p name attrs k kind -> exists s r, v = Some s /\ rule_of p name k r /\ sanitize_sink py (pol_url p) r (lower name) k kind s = Keep s) /\
  (k = u "style" -> exists s, v = Some s /\ sanitize_inline_style py (allowed_css p) s (lower name) (Some (pol_url p)) = Keep s).
(* words separated by single spaces *)
Definition rel_words (ws : list str) : Prop :=
  NoDup ws /\ forall w, In w ws -> w <> [] /\ lower w = w /\ forall c, In c w -> is_space c = false.
(* script and style elements hold text only, without an end tag for themselves, and style sheets load nothing (disallowed_functions: see
   C21) *)
Definition text_data_of (n : node) : str := match n with Tx _ d => d | _ => [] end.
Definition clean_rawtext (name : str) (ch : list node) : Prop :=
  (forall c, In c ch -> exists i d, c = Tx i d) /\ ~ occurs_end name (List.concat (map text_data_of ch)) /\
  (name = u "style" -> disallowed_functions (List.concat (map text_data_of ch)) false = false).
(* script and style elements whose text cannot end them, and style sheets that load nothing *)
Definition safe_rawtext (name : str) (ch : list node) : Prop :=
  (forall c, In c ch -> exists i d, c = Tx i d) /\ ~ closes name (List.concat (map text_data_of ch)) /\
  (name = u "style" -> disallowed_functions (List.concat (map text_data_of ch)) false = false).
Definition clean_node (py : urllib) (p : policy) (n : node) : Prop :=
  match n with
  | El _ name ns attrs ch _ =>
      In (lower name) (allowed_tags p) /\ ~ foreign name ns /\ NoDup (map fst attrs) /\ (forall k v, In (k, v) attrs -> clean_attr py p name attrs k v) /\
      (lower name = u "a" -> force_link_rel p <> [] -> exists ws, In (u "rel", Some (join [32] ws)) attrs /\ rel_words ws /\ incl (force_link_rel p) ws) /\
      (lower name = u "script" \/ lower name = u "style" -> clean_rawtext (lower name) ch)
  | Tx _ d => pol_strip_invisible p = true -> strip_invisible d = d
  | Cm _ _ | Pi _ _ => pol_drop_comments p = false
  | Dt _ _ => pol_drop_doctype p = false
  | Fr _ _ _ => True
  end.
Definition clean (py : urllib) (p : policy) (n : node) : Prop := forall x, inside x n -> clean_node py p x.

(* ---- policies for which a second run has nothing to do ---- *)
(* Checking a checked value again changes nothing, and checked values have no invisible characters (if those are stripped). *)
(* the ways an attribute can be checked *)
Definition kind_of (k : str) (kind : sink_kind) : Prop :=
  In (k, kind) url_attributes \/ (exists t g vals, In (t, k, kind, g, vals) guarded_url_attributes) \/ kind = KUrl.
Definition stable_policy (py : urllib) (p : policy) : Prop :=
  (forall t k kind r name raw v, In (t, k, r) (allow_rules (pol_url p)) -> kind_of k kind -> sanitize_sink py (pol_url p) r (lower name) k kind raw = Keep v ->
     sanitize_sink py (pol_url p) r (lower name) k kind v = Keep v /\ (pol_strip_invisible p = true -> strip_invisible v = v)) /\
  (forall name raw v, allowed_css p <> [] -> sanitize_inline_style py (allowed_css p) raw (lower name) (Some (pol_url p)) = Keep v ->
     sanitize_inline_style py (allowed_css p) v (lower name) (Some (pol_url p)) = Keep v /\ (pol_strip_invisible p = true -> strip_invisible v = v)) /\
  (* no URL rules for these attributes *)
  (forall t k r, In (t, k, r) (allow_rules (pol_url p)) -> ~ In k [u "style"; u "rel"; u "http-equiv"; u "name"]) /\
  (* the tokens of force_link_rel are single visible words; the element names of the policy are lower-case *)
  rel_words (force_link_rel p) /\ (forall w, In w (force_link_rel p) -> strip_invisible w = w) /\
  (forall t l, In (t, l) (allowed_attributes p) -> lower t = t).
