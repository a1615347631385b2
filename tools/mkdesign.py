#!/usr/bin/env python3
# Builds DESIGN.md: the text in tools/design_head.md, one section per property from the tables below, MANIFEST.json
# and properties.jsonl, and tools/design_tail.md.
import json
H = {  # property -> (what is modelled and against which specification, how it is proved)
"C01": ("SerializerModel.escape_text vs. the data and RCDATA states of HtmlTokSpec (character references included)", "induction on the text; the tokenizer run is computed one escaped character at a time"),
"C02": ("SerializerModel.escape_attr_value vs. the two quoted attribute value states", "induction on the value"),
"C03": ("serialize_start_tag/end_tag and the name regexes vs. the tag and attribute states", "induction on the attribute list; a witness for names ending in a newline"),
"C04": ("serialize_comment_data vs. the comment states", "invariant: which of '-', '--', '--!' has just been read"),
"C05": ("serialize_pi_data vs. the bogus comment state", "induction on the data"),
"C06": ("serialize_doctype vs. the doctype states", "symbolic run through name, PUBLIC, SYSTEM and the quoted identifiers"),
"C07": ("core/rawtext neutralisation vs. RAWTEXT states (RawTextSpec.closes)", "the neutralised text contains no end tag; the run lemma is by induction with the buffer as invariant"),
"C08": ("same, script data states including escaped and double escaped", "invariant over the script data states"),
"C09": ("the explicit stack of the compact serializer vs. SerTreeSpec.shown", "stack loop = structural recursion, then induction over trees"),
"C10": ("JS string context vs. a JS literal evaluator (JsSpec)", "induction on the text"),
"C11": ("URL context vs. a percent/UTF-8 decoder (PercentSpec)", "byte-wise induction, UTF-8 round trip"),
"C12": ("UrlModel (all of url/runtime.py) vs. UrlSpec.browser_scheme (WHATWG preprocessing and scheme extraction)", "case analysis on the branches of the cleaner; every accepted branch yields the scheme the browser sees"),
"C13": ("default policy rules (parse-time path and general path)", "instance of C12 plus the shape of the rules"),
"C14": ("control-character and backslash handling", "the cleaned value has none of the characters a browser drops"),
"C15": ("host extraction vs. UrlSpec.browser_authority", "allowed_hosts compared with the authority the browser uses"),
"C16": ("proxy handling", "percent-encoding keeps the whole URL in one query value"),
"C17": ("allow_fragment / allow_relative", "case analysis; witness for the space"),
"C18": ("srcset, space lists, comma lists", "every part passes the single-URL cleaner"),
"C19": ("meta refresh content", "parser of the value vs. the browser's; two witnesses"),
"C20": ("idempotence of cleaning", "agreement of first and second pass; witnesses"),
"C21": ("css.py tokenizer and checks vs. CssSpec", "relation between the two scans; witnesses for the two bypasses"),
"C22": ("SanModel: the compiled sanitizer walk on trees, for an arbitrary policy, vs. SanSpec", "fuel bound, then tree induction over the walk"),
"C23": ("same", "non-interference: two inputs differing only inside dropped content give equal results"),
"C24": ("same", "second run on the output; witnesses for foreign hoisting and escape mode"),
"C25": ("same, SanSpec.clean", "tree induction: every step is the identity on clean trees"),
"C26": ("SanHandlerModel: strip, raise, collect", "simulation between the modes; sorting lemmas"),
"C27": ("EntitiesModel vs. HtmlCharRefSpec over the full entity table", "exact agreement by cases; the longest-prefix search by computation over the table in the kernel"),
"C28": ("DomModel: heap of nodes with parent/children pointers, every method of dom/__init__.py", "invariant over all histories of calls"),
"C29": ("clone_node's explicit stack", "simulation with the recursive copy"),
"C30": ("SelModel (parser and matcher) vs. SelSpec / SelTextSpec", "grammar-based reading, then matcher soundness"),
"C31": ("same", "completeness under nearest_ok; witnesses for the greedy ancestor search and its cache"),
"C32": ("nth-child arithmetic and An+B parsing", "integer arithmetic"),
"C33": ("query, query_one, fast paths", "document order and absence of duplicates as list lemmas"),
"C34": ("EncModel: byte-level sniffing", "branch-wise against EncSpec"),
"C35": ("same", "measure for termination; window lemmas"),
"C36": ("LinkModel incl. the candidate regex as a matcher", "span lemmas"),
"C37": ("linkify on trees", "tree induction; divergence witness"),
"C38": ("StackModel: the open-element stack with its counters", "refinement of a plain list over all histories"),
"C39": ("ScanModel: comment scanner", "agreement with the comment states; three witnesses"),
"C40": ("AttrModel: _parse_all_attrs/_skip_attrs", "agreement with the attribute states"),
"C41": ("AttrModel: the fused parse-and-sanitize of attributes", "equality with parse-then-sanitize"),
"C42": ("ScanModel: raw text end finders", "agreement with RAWTEXT/RCDATA/script states"),
"C43": ("StreamModel: all of stream.py", "covering relation StreamSpec between input and events; stack invariant"),
"C44": ("DoctypeModel", "against an independent DOCTYPE tokenizer and the quirks tables"),
"C45": ("MdModel: markdown.py", "inline grammar (MdGrammar) as invariant of the output buffer"),
"C46": ("MdModel: destinations", "percent-decoder and CommonMark destination scan"),
"C47": ("invisible-character filter, on strings and through the sanitizer", "character-wise; tree invariant"),
"C48": ("error bookkeeping", "bounded, stable insertion sort"),
"C49": ("glob matcher", "backtracking invariant vs. the inductive matching relation"),
"C50": ("three whitespace functions", "loop invariants"),
"C51": ("ascii_lower", "character-wise"),
"C52": ("line/column bisect", "binary search invariant"),
"C53": ("FmtModel: list of active formatting elements with lazy retirement and index", "refinement of the standard's list over all histories"),
"C54": ("PrettyModel: _node_to_html with all layouts vs. HtmlTokSpec, PrettySpec.settled/markup", "every line template yields well-formed pieces whose tokens equal the compact ones up to white space; tree induction"),
"C55": ("same", "witnesses; positive part for one text"),
"C56": ("TextModel: to_text on trees", "tree induction against the token-free specification"),
"C57": ("TransModel", "tree induction"),
"C58": ("TransModel: CollapseWhitespace on trees", "tree induction against TidySpec (words per paragraph)"),
"C59": ("TransModel: PruneEmpty on trees", "tree induction against TidySpec"),
"C60": ("FinishModel: child lists and parent links of numbered nodes, both unwrap strategies", "forest invariant; refinement of tree surgery (hoist, prune)"),
"C61": ("SelectModel: the scan, clone, record and walk of _project_selectedcontent", "invariants over fresh node numbers; view of the tree against SelectSpec; witness for nested selects"),
"C62": ("AaaModel: _adoption_agency with its list helpers", "simulation against AaaSpec, the algorithm of the standard on lists without indices; invariant relating the bookmark index to the bookmark; witnesses"),
"C63": ("BuilderModel: all of dom/builder.py vs. BuilderSpec (shorthand grammar, flattening relation)", "induction on the brackets for both directions of the equivalence; stack loop = recursive flattening; mutual induction over built trees for serializability; witness for a name ending in a newline"),
"C64": ("ReconModel: reconstruction, the flag, and the changes of stack and list as events vs. ReconSpec (the standard's algorithm run every time)", "rewinding and advancing over slots = the standard on the live list; invariant: flag clear -> every entry since the last marker is open; simulation over histories; witnesses for templates, captions and an out-of-order list"),
"C65": ("GuardModel: the four insertion paths, namespaces, formatting entries, clones, records (on AaaModel, ReconModel, AttrModel) vs. GuardSpec", "invariant over histories: every element made so far is sanitized or recorded, every formatting entry holds sanitized attributes; the invariant fails in one case, which tame names and C65_link_refuted exhibits"),
"C66": ("CloseModel: what start and end tags close and open on the stack of open elements, and the namespace of what is made, vs. CloseSpec (the rules of the standard)", "every search of the two sides is one search with two predicates; invariant on the stacks reached (HTML elements sit on HTML or integration points, foreign elements have no breakout names, no block in a paragraph, no dd in a dd) makes the predicates agree; foreign elements on top are transparent; step and history theorems; witnesses for every case left out"),
"C67": ("TableModel: what the ten tags of tables open and close (repair of tables, cells, rows, sections, column groups, markers) on the stack of open elements, vs. TableSpec (the insertion modes of the standard, with a mode variable, reprocessing and the reset algorithm)", "the stacks reached are a chain of 15 kinds of segments (what is open of each table) with content between them; each tag on each kind of top segment by computation through the searches, which skip content and stop at the table; the standard's mode equals reset of the stack throughout; histories by induction; C67_parents by the shape of each branch on any stack; witnesses for every case left out"),
"C68": ("TableModel takes the order of the set as a parameter", "for any two orders with the same elements each tag gives the same outcome: at most one section is open above the table, except as foreign elements in integration points - which is the witness of C68_order_refuted"),
"C69": ("FosterModel: the tree with parent links, _foster_parent_for, _insert_at, _append_text with its pending white space and _insert_raw_element, vs. FosterSpec (appropriate place, insert a character, in table, in table text; one character at a time, places without indices)", "places: the parser's index is the standard's place on well-formed states (every open table is once among its parent's children, tables and their parts are housed); text: white space inserted and taken back is the identity, chunks = folds of characters; preservation of well-formedness by every event; conservation of text and of links as permutations over arbitrary histories; witnesses"),
"C70": ("CoerceModel: the cleaning chain of text, raw text and comments with its flags and ASCII shortcuts, _coerce_text_for_xml, _coerce_comment_for_xml, _normalize_surrogate_pairs (the loop with its lazily made copy), vs. CoerceSpec (normalize newlines as a relation, XML Char and Comment, noncharacters, UTF-16)", "the chain is the composition of the relations; coercion is a pointwise map (shortcuts included); hyphens by strong induction; the loop = pairwise joining, which keeps UTF-16 and leaves no pair; witnesses: --- and a final hyphen in comments, C0 controls and surrogates in text"),
"C71": ("CoerceModel: _processing_instruction_data, its cleaning, and the serializer's _serialize_pi_data, vs. the relation instruction of CoerceSpec", "the function is the relation (both directions, hence unique); cleaning distributes over target, space and data, so the serialized data is again an instance of the relation with the same data"),
"C72": ("PlanModel: requirements, binding of policies, the appended Sanitize, stages, lowering with chains, the scheduling loop of walks and batches (node functions, callbacks and reports are opaque), vs. PlanSpec (leaves, groups, operations)", "each rewriting preserves the list of entries (hooks and operations); grouping as a relation shown to be functional; a predicate on compiled lists (a sanitizer part is followed by one or by the end of the walk) kept by lowering; witnesses for a disabled Sanitize, an Edit in the walk of the last Sanitize, limits of HardenRawtext, chained attribute functions"),
"C73": ("ForeignModel: _prepare_raw_element, _prepare_foreign_attrs and their tables, vs. ForeignSpec (the standard's lists of mixed-case names)", "the tables are the lists (by computation); lowering again changes no lookup because the keys are ASCII and only U+212A lowers into ASCII; folding is a left inverse of adjusting, hence injectivity and the round trip; witnesses U+212A and fedropshadow"),
"C74": ("SkipModel: _skip_subtree and its call for dropped svg and math elements, vs. SkipSpec (pieces of foreign content, their source text)", "the loop shortens the input, so fuel is irrelevant; nested induction over pieces: scanning the source of a piece leaves the count as it was; induction over the loop for where it can stop; witnesses for self-closing roots and for end tags in attribute values and comments"),
"C75": ("ActionModel: _compile_tag_actions, compile_engine_plan and _sanitize_parsed_attrs, vs. SanModel (the sanitizer of C01-C11 on a tree), UrlSpec and C41 (reading and checking in one pass)", "the finite tables of the two default policies by computation; the rest for all names and values: induction over the attributes, C20 for the two URL checks, C12/C14 for the safety of either; witnesses for backslashes, spaces and meta refresh"),
"C76": ("ShortModel: _parse_compiled_safe_start_tag and _parse_compiled_safe_end_tag for ordinary tags, vs. CloseModel (the full parser, C66) and CloseSpec (the standard)", "the tables by computation; a stack without p makes the repair nothing; repairs keep the current node an HTML element or an integration point (invariant of C66); induction over histories; witness for ruby"),
"C77": ("FramesetModel: the flag of blocking tags, _accept_frameset, _body_allows_frameset, _foreign_subtree_allows_frameset vs. a specification by reachability, and the standard's frameset-ok flag", "generic lemma on the stack walk (induction on fuel, size as measure), order-free; induction over histories; witnesses for span, comments, br in foreignObject"),
}
props=[json.loads(l) for l in open('/verif/properties.jsonl')]
man={c['property']:c for c in json.load(open('/verif/MANIFEST.json'))['claims']}
extra=json.load(open('/verif/tools/design_extra.json'))
out=open('/verif/tools/design_head.md').read()
out+="\n## Per property\n\n"
for p in props:
    i=p['id']; c=man.get(i)
    h=extra.get(i) or H.get(i)
    out+=f"### {i} {p['title']}\n\n{p['statement']}\n\n"
    if h: out+=f"* Modelled: {h[0]}.\n* Proof: {h[1]}.\n"
    if c:
        out+=f"* Status: **{c['status']}**. {c['note']}\n* Theorems: "+", ".join(f"`{t}`" for t in c['theorems'])+"\n"
    out+="\n"
out+=open('/verif/tools/design_tail.md').read()
open('/verif/DESIGN.md','w').write(out)
