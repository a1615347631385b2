## Trusted base

* Coq 8.16.1: the kernel, including its conversion by virtual machine (`vm_compute`) used for table lookups and
  literal examples. `native_compute` is not used.
* Axioms: none of our own, and `Print Assumptions` under every property theorem prints "Closed under the global
  context". vcheck lists seven library axioms (`Coq.ssr.ssrunder.Under_rel.*`); they come with the standard
  library's ssreflect files (loaded through other library modules), they are the abstract signature of the `under`
  tactic, and no theorem here depends on them.
* Sections with `Variable`/`Hypothesis` are closed; the quantified facts appear in the final statements.
* The specifications `*Spec.v` (HTML tokenizer, character references, raw text rules, browser URL preprocessing, CSS
  declarations, selector semantics, CommonMark inline rules, DOM forests, ...) are transcriptions of the standards
  made by reading; they are trusted to say what the English says.
* The correspondence model - Python is by reading: every definition cites the lines it models. Nothing was executed.
* Unicode: `UnicodeTables.v` (isspace, isalnum, isdigit, decimal, lower/upper/casefold data used) and
  `EntityTable.v` are data generated from CPython 3.11's `unicodedata`/`html.entities` by tools/.

## What is modelled

| /repo/src/justhtml | model | not modelled |
|---|---|---|
| core/entities.py | EntitiesModel (all) | - |
| core/constants.py | the tables each model uses | - |
| core/doctype.py, core/text.py, core/rawtext.py | DoctypeModel, SerializerModel | - |
| serializer/html.py | SerializerModel (names, escaping, compact walk, contexts), PrettyModel (pretty walk) | to_test_format; node budgets and memo tables (pure caches) |
| serializer/markdown.py | MdModel (all but the two raw-HTML passthrough renderers for table and img, which call the html serializer) | - |
| dom/__init__.py | DomModel (tree mutation, clone), TextModel (to_text) | properties that only forward (origin_*, query -> selector) |
| sanitizer/url/*, sanitizer/css.py, sanitizer/rawtext.py, sanitizer/dom.py, sanitizer/policy.py | UrlModel, CssModel, SanModel, SanHandlerModel, SanPolicyInit, SanDefaults | `urllib.parse`'s NFKC and `ipaddress` checks are parameters |
| transforms/compile.py, transforms/runtime.py | SanModel (sanitize chain), LinkModel (linkify), MiscModel (globs), TransModel (collapse whitespace, prune empty, drop/unwrap/empty/setattrs), PlanModel (requirements, policies, stages, chains, schedule of walks) | user callbacks |
| transforms/linkify_core.py | LinkModel (incl. the candidate regexes as matchers) | punycode/idna of the standard library |
| selector/core.py | SelModel (tokenizer, parser, matcher, query paths) | LRU caches of compiled selectors |
| parser/encoding.py | EncModel | the codecs |
| parser/stream.py | StreamModel (all) | - |
| parser/scanner.py | ScanModel, AttrModel | - |
| parser/engine.py | AttrModel (attributes, fused and plain), ScanModel (comments, raw text), RawElemModel (raw text elements), DoctypeModel, StackModel (open elements), FmtModel (active formatting elements), FinishModel (drop, unwrap, fragment context), SelectModel (selectedcontent), AaaModel (adoption agency), GuardModel (insertion and recording), ReconModel (reconstruction of formatting, its flag), CloseModel (ordinary tags in the body and in foreign content), TableModel (the tags of tables), FosterModel (text and elements put in front of tables), ForeignModel (names in SVG and MathML), SkipModel (the end of a dropped svg or math element), ActionModel (the tag table of the default engine), FramesetModel (acceptance of framesets), ShortModel (ordinary tags in the default engine), CoerceModel (cleaning of text and comments, processing instructions) | the insertion modes other than the body and tables (head, select, templates, framesets), the tags CloseModel lists in other_rules |
| parser/__init__.py | error bookkeeping, escape helpers, PlanModel (choice of engine, transforms of the constructor) | input decoding by type |
| dom/builder.py | BuilderModel (all) | re-parenting of attached children (DomModel) |
| \_\_main\_\_.py | - | command line |

Tree construction is not modelled as a whole: a statement "the parser builds the tree the standard prescribes" would
need the standard's tree construction as specification (some 100 pages); instead its data structures (stack, list of
formatting elements, attribute and text scanners) are proved against the standard's definitions.

## Findings

Each is a kernel-checked witness (`..._refuted` or an Example), except where marked (candidate).

* CSS: a comment opener inside a string hides later declarations from the checks (C21); U+0130 shifts offsets (C21).
* URL: a value with a space ('h ttps://x') passes allow_relative=False (C17); meta refresh values reach hosts outside
  allowed_hosts (C19); cleaning is not idempotent with backslashes (C20).
* Entities: an uncaught ValueError on Unicode digits, references running into non-ASCII letters (C27).
* Sanitizer: foreign elements survive in unwrap/escape mode (C22), sanitizing twice changes the tree (C24).
* Serializer: names ending in a newline (C03), doctype without a name (C06), adjacent raw text nodes (C07), scripts
  with '<!--' ... '<script' (C08).
* DOM: template contents can form a cycle through insertion methods (C28), deep clone loops on it (C29).
* Selectors: greedy ancestor choice and a wrong ancestor cache (C31), combinators in :not() (C30).
* Linkify: ValueError on superscript digits (C36), endless loop for skip_tags without 'a' (C37).
* Parser: comment end corner cases (C39), attribute names with cased non-ASCII letters (C40), fused attribute parser
  vs. two-step (C41), end tag tails with quotes (C42), stream scanner deviations (C43), doctype quirks (C44).
* Markdown: code span of one newline exposes later HTML (C45); destinations with backslash, form feed or character
  references (C46: a javascript: URL the default policy keeps).
* Pretty printer: joins words, splits words, drops a lone no-break space (C55).
* Transforms: children hoisted by a later transform never see the earlier ones of the same walk, Unwrap leaves directly
  nested matches, SetAttrs(x=None) does not create the attribute, fused Decide/EditAttrs chains differ from running them
  one by one (C57).
* CollapseWhitespace leaves a space at the end of a block before a comment and a blank text, so it is not idempotent (C58);
  PruneEmpty("*") removes the doctype (C59).
* **Default sanitizer bypass**: with a select inside a select, the copies that the second projection makes of copies are
  not recorded, so `<x><svg><select><selectedcontent></selectedcontent><option><select><selectedcontent></selectedcontent>`
  `<option><a href="javascript:alert(1)">click` leaves the link in the sanitized tree (C61_recorded_refuted).
* (candidate) transform marks are keyed by id(node), so a freed node's id can be reused by a new node (CPython-dependent,
  not modelled).
* Adoption agency (C62): the replacement is inserted before the bookmark after a lazy retirement (visible once eight
  rounds are used up: `<b><i>`, nine `<div>`, `x</b>`, nine `</div>`, `y`); an unlisted element of the name is not closed
  (`<b><b><b><b></b></b></b><span>x</b>y`, `<b><b><b><b></b></b></b><p><b></p></b>y`); SVG and MathML integration points do
  not end the scope (`<b><svg><foreignObject><div>x</b>y` moves the div out of the svg).
* Builders (C63): an attribute name ending in a newline is accepted (`$` in the regular expression), and reads back as another.
* Reconstruction (C64): text in a template clears the flag for what follows it (`<p><b></p><template>t</template>x`: x is not
  bold); text directly in a caption is not put back (`<table><caption><p><b></p>x`); after the out-of-order list of C62 an
  element is not reopened.
* **Default sanitizer bypass**: an `a` start tag met in an SVG integration point after an earlier `a` was reopened as an SVG
  element is itself made an SVG element with its attributes as written, and the adoption agency clones it as HTML:
  `<x><svg><desc><p><a></p></desc><desc><a href="javascript:alert(1)"><desc><div>click</a>` leaves a live javascript: link
  (C65_link_refuted).
* Tags in the body against the standard (C66_*_refuted, each with the input): a `dd`/`dt` start tag closes an outer `dd` through
  sections, list items and SVG integration points; `</dd>` is ignored inside a nested `dl`; a `button` start tag closes a button
  outside an `object` or table cell, and one that is an SVG element; `<ruby><p><rb>` leaves the p open and `rt` inside an
  `object` acts on the outer ruby; `<ul><li><svg><desc><li>` closes the SVG; `dialog` is treated as special; an end tag with the name
  of an integration point closes it from inside HTML content; `</audio>` and `</slot>` look through integration points; an
  `annotation-xml` without an HTML encoding does not end scopes.
* Tables against the standard (C67_*_refuted, each with the input): with an integration point open in a cell, `</td>` and `</table>`
  are ignored and `<table>` closes the table around; `<td>` in an integration point with no table open closes everything and puts a
  cell into the root element; `<table><colgroup></col><col>` makes a second column group; the markers a caption or cell set stay in
  the list of formatting elements when a `tr` or `</table>` closes them, so formatting leaks out of the table; SVG elements named
  `tbody` are taken for sections.
* **The tree depends on the hash seed** (C68_order_refuted): `<svg><tbody><thead><tbody><desc><caption>x` leaves different elements
  open depending on the order of the Python set of section names.
* Text in tables (C69_*_refuted): `<table>a< <tr>` leaves the space in the table; `<p><b></p><table> <3` separates the space from
  the rest; `<p><b></p><table>&#32;<tr>` opens a b in front of the table; `<table> </>x` treats `</>` as a token; in a fragment
  with context tbody, `<tr>x` keeps the x in the row.
- C70: with xml_coercion, "---" in a comment becomes "- --", which still holds "--"; a hyphen at the end of the comment stays; C0 controls and lone surrogates in text stay. None of these is legal in XML.
- C72: `transforms=[Sanitize(enabled=False)]` switches sanitizing off although sanitize=True; with `transforms=[Edit(...)]` the final
  Sanitize shares the walk of the Edit, so what the function puts behind the cursor (`node.parent.attrs["onclick"]`) is not sanitized;
  a HardenRawtext changes the limits of matching; a second EditAttrs on the same selector runs on a node that no longer matches.
- C73: `fedropshadow` is not in the table of SVG names (`<svg><feDropShadow>` comes out as fedropshadow); an attribute spelled with
  U+212A for k, `xlin\u212a:href`, becomes xlink:href in SVG and hides, or is hidden by, a real one.
- C74: a self-closing svg is not taken as closed: `<svg/>text</svg>after` loses "text" (also `<svg><svg/></svg>x</svg>y` loses x); `</svg>` inside
  a quoted attribute value after `>`, or in a comment, ends the drop, so the rest of the element comes out as content of the page.
- C75: the default engine keeps `href="https://x\y"` and `href="/ /x"`, which sanitizing the tree with the same policy drops or changes (the
  short URL check of C20; both results are safe in the sense of C12 and C14). The table would not do for policies with `meta` refresh rules; only
  the two default policies are compiled.
- C76: the default engine lacks the ruby rules of the full parser: `<ruby><p>a<rt>b` keeps b inside the paragraph. Outside the model: its start tags
  of allowed ordinary elements do not reconstruct formatting elements first (engine 3260-3284, 3543-3555), so `<p><b>x</p><span>y</span>` gives
  `<span><b>y</b></span>`, where the standard and the full parser give `<b><span>y</span></b>`.
- C77: the standard lets a frameset replace a body with `<span></span>`, `<section></section>` or a comment in it; the engine keeps the body and drops the frameset
  (C77_kept_refuted, C77_comment_refuted). With `<svg><foreignObject><br></foreignObject></svg>` it is the other way round: the engine replaces what the
  standard keeps (C77_lost_refuted).

## Testing the theorems

`tools/mutate.py` edits one definition of a model in a scratch copy, rebuilds what depends on it and records which
lemma or theorem fails first; `seeded/muts*.py` hold the edits and `seeded/LOG.jsonl` every attempt with its outcome.
Survivors were either equivalent edits or led to tightened theorems (field `theorems_tightened`).

## Building

`cd rocq && coq_makefile -f _CoqProject -o Makefile && make -j4` (about five minutes on four cores).
