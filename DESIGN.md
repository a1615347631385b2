# Formal model of justhtml in Rocq (Coq 8.16.1)

Generated by tools/mkdesign.py. The first part is the original plan; the section 'Per property' says what was
modelled, how it was proved and under which theorem names.

## Approach

* Python `str` is `list N` (code points, lone surrogates included); `bytes` is `list N` with values < 256.
* Every modelled Python function becomes one total Gallina function of the same shape, in a file `*Model.v`,
  each with a comment citing the file and lines in /repo. Exceptions are values (`option`/`result`), loops are
  structural recursion or carry fuel with a distinct "out of fuel" value which a theorem rules out.
* Specifications (HTML tokenizer states, browser URL scheme extraction, CSS matching, ...) are written
  independently of the model in `*Spec.v` files, from the WHATWG/CSS standards.
* Proofs live in `*Proofs.v`; the property theorems are in `Properties*.v`, each closed by `exact lemma` with
  `Print Assumptions` under it and non-vacuity `Example`s beside it.
* When the full statement is false of the faithful model we prove `..._refuted` with a concrete witness and
  the strongest true variant as `..._partial`.

## Plan per property (see properties.jsonl)

* C01-C09 serializer: model of escaping and of the compact serializer; spec = WHATWG tokenizer state machine
  (data, RCDATA, RAWTEXT, script data incl. escaped states, tags, attributes, comments, character references);
  round trips by induction on the string/tree.
* C10, C11: JS literal evaluator spec; percent-decoder spec.
* C12-C20 URL cleaning: full model of url/runtime.py; spec = browser preprocessing + scheme/authority extraction.
* C21 CSS: model of css.py; spec predicate over declarations.
* C22-C26 sanitizer pipeline: tree model of the compiled sanitizer walk; spec predicates over result trees.
* C27 entities: model + WHATWG character reference spec over the same entity table.
* C28, C29 DOM: heap model (node id -> record), invariant over all operation sequences.
* C30-C33 selectors: tree + zipper model; declarative CSS semantics.
* C34, C35 encoding: byte-level model of sniffing.
* C36, C37 linkify: candidate regex abstracted as an arbitrary ordered span list; everything after it modelled.
* C38, C53 open-element stack / formatting list: state machines over operation histories.
* C39-C42 tokenizer-level scanners of the parser versus the spec state machines.
* C43 stream scanner. C44 quirks table. C45, C46 Markdown. C47-C52 as named.

## Per property

### C01 Escaped text is inert markup that decodes back to itself

For every text t, the serialized form of a text node (outside raw-text parents) contains no '<' or '>' and, read by an HTML5 tokenizer in the data (or RCDATA) state, yields exactly the characters of t and no tag, comment or end tag.

* Modelled: SerializerModel.escape_text vs. the data and RCDATA states of HtmlTokSpec (character references included).
* Proof: induction on the text; the tokenizer run is computed one escaped character at a time.
* Status: **proved**. escape_text, for every text, in the data and RCDATA states and with any following output.
* Theorems: `C01_escaped_text_is_inert`, `C01_document_of_escaped_text`

### C02 Escaped attribute values cannot leave their quotes and decode back to themselves

For every value v and either quote character q, the escaped value contains no q, '<' or '>' and, read by an HTML5 tokenizer in the q-quoted attribute value state, yields exactly v and ends at the closing quote written after it. The same holds for JustHTML.escape_attr_value.

* Modelled: SerializerModel.escape_attr_value vs. the two quoted attribute value states.
* Proof: induction on the value.
* Status: **proved**. escape_attr_value for both quotes; NUL is read as U+FFFD by any tokenizer.
* Theorems: `C02_escaped_attr_value_stays_quoted`

### C03 A serialized start tag tokenizes to exactly that tag and its attributes

For every name and attribute dict that the serializer accepts, the emitted start tag is read by an HTML5 tokenizer as one start tag with that (ASCII-lower-cased) name and exactly those attributes in order, regardless of quoting/minimisation options; names it cannot emit safely are rejected with ValueError.

* Modelled: serialize_start_tag/end_tag and the name regexes vs. the tag and attribute states.
* Proof: induction on the attribute list; a witness for names ending in a newline.
* Status: **partial**. Every accepted start/end tag, all options, and the exact set of rejected names; 'reads as that name' fails for names ending in a newline (C03_final_newline_refuted), which the regexes accept.
* Theorems: `C03_start_tag_reads_as_itself`, `C03_end_tag_reads_as_itself`, `C03_unsafe_names_rejected`, `C03_final_newline_refuted`

### C04 Comments cannot be closed early by their data

For every comment data, the serialized comment is read by an HTML5 tokenizer as exactly one comment token and nothing else; following output is tokenized from the data state.

* Modelled: serialize_comment_data vs. the comment states.
* Proof: invariant: which of '-', '--', '--!' has just been read.
* Status: **proved**. Every comment data; data changes at most by added spaces.
* Theorems: `C04_comment_is_one_token`

### C05 Processing instructions cannot be closed early by their data

For every processing-instruction data the output contains exactly one '>' – its final character – so an HTML5 tokenizer reads it as one bogus comment.

* Modelled: serialize_pi_data vs. the bogus comment state.
* Proof: induction on the data.
* Status: **proved**. 
* Theorems: `C05_pi_is_one_token`

### C06 Doctype serialization stays one token

For every doctype name, public id and system id, the serialized doctype contains no '>' before its last character and identifiers cannot close their quotes.

* Modelled: serialize_doctype vs. the doctype states.
* Proof: symbolic run through name, PUBLIC, SYSTEM and the quoted identifiers.
* Status: **partial**. One token, always; identifiers are exact when free of & < > and double quote; a doctype without a name is misread (C06_nameless_doctype_refuted).
* Theorems: `C06_doctype_is_one_token`, `C06_doctype_round_trips`, `C06_nameless_doctype_refuted`

### C07 Raw text elements cannot be closed early by their text

For every text t and raw-text element (style, xmp, iframe, noembed, noframes), the serialized element is read by an HTML5 tokenizer as start tag, characters, one end tag – the end tag the serializer wrote – and nothing in t ends the element early.

* Modelled: core/rawtext neutralisation vs. RAWTEXT states (RawTextSpec.closes).
* Proof: the neutralised text contains no end tag; the run lemma is by induction with the buffer as invariant.
* Status: **partial**. Single text node (what the parser builds). Two adjacent text nodes can close the element (C07_two_text_nodes_refuted); text can be lost (C07_text_lost_refuted).
* Theorems: `C07_raw_text_cannot_close_its_element`, `C07_two_text_nodes_refuted`, `C07_text_lost_refuted`

### C08 Script elements cannot be closed early, and do not swallow what follows

For every script text, the serialized script element is tokenized as start tag, characters, its own end tag and nothing of the following output is swallowed.

* Modelled: same, script data states including escaped and double escaped.
* Proof: invariant over the script data states.
* Status: **partial**. Scripts without '<!--' ... '<script'; the other case is refuted.
* Theorems: `C08_script_cannot_close_its_element_partial`, `C08_double_escaped_script_refuted`

### C09 Compact serialization of a tree tokenizes to the tree

For every DOM tree of ordinary HTML elements, text and comments whose names the serializer accepts, tokenizing to_html(pretty=False) yields exactly the pre-order start tag / text / comment / end tag events of the tree: no data can create, close or hide markup.

* Modelled: the explicit stack of the compact serializer vs. SerTreeSpec.shown.
* Proof: stack loop = structural recursion, then induction over trees.
* Status: **proved**. All trees HTML syntax can express (void elements empty, RCDATA holds text, at most one text node in raw text elements, scripts as in C08). Foreign elements are not covered; the pretty printer is C54.
* Theorems: `C09_tree_reads_back`, `C09_tree_tokenizes_back`, `C09_serializer_total`

### C10 JS string escaping keeps the value inside the literal and decodes back

For every value and either quote, escape_js_string's output contains no unescaped quote, no line terminator and no '<' or '>' and evaluates as a JS string literal body to exactly the value; an invalid quote is rejected.

* Modelled: JS string context vs. a JS literal evaluator (JsSpec).
* Proof: induction on the text.
* Status: **proved**. 
* Theorems: `C10_js_string_evaluates_back`, `C10_js_string_is_inert`, `C10_js_string_rejects_other_quotes`, `C10_text_in_js_reads_back`

### C11 URL percent-encoding is injective, confined to a safe alphabet and idempotence-free of delimiters

For every encodable value, escape_url_value emits only unreserved characters, the kept separators and %XX triples, so quotes, angle brackets, spaces and backslashes never appear, and percent-decoding gives the UTF-8 bytes of the value back (values containing a literal % included); lone surrogates raise.

* Modelled: URL context vs. a percent/UTF-8 decoder (PercentSpec).
* Proof: byte-wise induction, UTF-8 round trip.
* Status: **proved**. Raises exactly on lone surrogates.
* Theorems: `C11_url_escape_decodes_back`, `C11_url_escape_injective`, `C11_url_escape_alphabet`, `C11_url_escape_raises_on_surrogates`

### C12 A cleaned URL never has a scheme outside the rule

For every rule and value, if URL cleaning with handling 'allow' returns a URL then a browser parsing that URL sees either no scheme or a scheme in rule.allowed_schemes.

* Modelled: UrlModel (all of url/runtime.py) vs. UrlSpec.browser_scheme (WHATWG preprocessing and scheme extraction).
* Proof: case analysis on the branches of the cleaner; every accepted branch yields the scheme the browser sees.
* Status: **proved**. The URL cleaner with handling allow for every rule (lower-case valid schemes), value, filter; and clean_url_value.
* Theorems: `C12_cleaned_url_scheme_is_allowed`, `C12_clean_url_value`

### C13 javascript:, data: and vbscript: never survive the default URL rules

With the default policy, for every attribute value of a[href] and img[src] the sanitized value, if any, is not seen by a browser as a javascript:, vbscript:, data: or blob: URL.

* Modelled: default policy rules (parse-time path and general path).
* Proof: instance of C12 plus the shape of the rules.
* Status: **proved**. Both the parse-time path and the general path of the default policy; stronger: img[src] is never absolute nor protocol-relative.
* Theorems: `C13_default_href`, `C13_default_img_src`

### C14 Protocol-relative URLs are only emitted with an explicit allowed scheme

If cleaning returns a URL for a value a browser would treat as protocol-relative, the result starts with the rule's resolve scheme, which is in allowed_schemes; with no resolve scheme the value is dropped. Output never starts with '//' or with a backslash variant of it.

* Modelled: control-character and backslash handling.
* Proof: the cleaned value has none of the characters a browser drops.
* Status: **proved**. 
* Theorems: `C14_output_never_protocol_relative`, `C14_protocol_relative_is_resolved`

### C15 Host allowlists hold

If a rule has allowed_hosts and cleaning (handling allow) returns a URL with an authority, then the host a browser would contact is in allowed_hosts: no userinfo, port, percent-escape, non-ASCII or numeric-IPv4 trick yields another host.

* Modelled: host extraction vs. UrlSpec.browser_authority.
* Proof: allowed_hosts compared with the authority the browser uses.
* Status: **proved**. ipaddress/NFKC checks inside urllib are arbitrary parameters. A degenerate 0x label and hosts with a trailing dot count as names.
* Theorems: `C15_host_allowlist`

### C16 Handling 'strip' and 'proxy' are total

With handling 'strip' no URL is ever returned; with handling 'proxy' every returned URL is the proxy URL plus the percent-encoded original in one query parameter, or nothing when no proxy is configured.

* Modelled: proxy handling.
* Proof: percent-encoding keeps the whole URL in one query value.
* Status: **proved**. 
* Theorems: `C16_strip_never_returns`, `C16_proxy_without_proxy`, `C16_proxy_shape`

### C17 allow_relative=False and allow_fragment=False are honoured

With allow_relative=False every returned URL (handling allow) is seen by a browser as absolute with an allowed scheme or as a fragment; with allow_fragment=False no returned URL starts with '#'.

* Modelled: allow_fragment / allow_relative.
* Proof: case analysis; witness for the space.
* Status: **partial**. allow_fragment fully; allow_relative=False for results without spaces; with a space the claim is refuted ('h ttps://x').
* Theorems: `C17_allow_fragment_false`, `C17_allow_relative_false_partial`, `C17_allow_relative_refuted`

### C18 Every candidate of a srcset / URL list is validated

If srcset, ping, attributionsrc, archive or profile cleaning returns a value, every candidate a browser would extract from that value is a URL the rule accepts; one bad candidate drops the whole attribute.

* Modelled: srcset, space lists, comma lists.
* Proof: every part passes the single-URL cleaner.
* Status: **proved**. srcset, space lists and comma/space lists with handling allow.
* Theorems: `C18_srcset`, `C18_space_list`, `C18_comma_or_space_list`

### C19 meta refresh targets are validated

If meta refresh cleaning returns a value, the URL a browser extracts from it is one the rule accepts.

* Modelled: meta refresh content.
* Proof: parser of the value vs. the browser's; two witnesses.
* Status: **partial**. Proved when the part before ';' is a number and the cleaned URL does not begin with a quote; both other cases are refuted by witnesses that reach a host outside allowed_hosts.
* Theorems: `C19_meta_refresh_partial`, `C19_meta_refresh_prefix_refuted`, `C19_meta_refresh_quote_refuted`

### C20 The parse-time URL fast path agrees with the policy

Whenever the fast URL check used by the default safe parser returns a value, the general URL cleaner with the same rule returns the same value, and whenever it drops a value the general cleaner drops it.

* Modelled: idempotence of cleaning.
* Proof: agreement of first and second pass; witnesses.
* Status: **partial**. Agreement for values without backslashes and without spaces in //-like values; refuted otherwise; the safety guarantees of C12 and C14 hold for every value.
* Theorems: `C20_fast_path_agrees_partial`, `C20_fast_path_agrees_refuted`, `C20_fast_path_safe`

### C21 Inline CSS keeps only allowlisted properties with harmless values

For every style value, the sanitized style consists only of declarations whose property is in the allowlist and whose value has no url()/image-set/expression/@import/comment/escape constructs (unless a url() is permitted by a URL rule and every URL in it was cleaned by that rule).

* Modelled: css.py tokenizer and checks vs. CssSpec.
* Proof: relation between the two scans; witnesses for the two bypasses.
* Status: **partial**. Names of declarations and absence of escapes: every input. Absence of dangerous functions and validation of every url(): inputs without comment openers and U+0130, or (no URL rules) inputs without quotes; the two remaining cases are refuted (a real bypass: a comment opener inside a string).
* Theorems: `C21_declared_properties_are_allowed`, `C21_no_backslash`, `C21_functions_are_harmless_partial`, `C21_functions_with_comments_partial`, `C21_comment_in_string_refuted`, `C21_dotted_I_refuted`

### C22 Sanitized trees contain only allowed elements and attributes

For every DOM tree and policy, after sanitization every remaining element has a tag in allowed_tags and every attribute is allowed for its tag (or produced by the policy itself); no event handler attribute or foreign-namespace element remains.

* Modelled: SanModel: the compiled sanitizer walk on trees, for an arbitrary policy, vs. SanSpec.
* Proof: fuel bound, then tree induction over the walk.
* Status: **partial**. Elements, attributes, URL/style values, rel tokens, raw text, totality and (drop mode) foreign elements are proved for every tree and policy. 'No foreign element remains' is false in unwrap/escape mode (C22_no_foreign_refuted: <x><svg><a>); proved there: a foreign element that is left has no element inside.
* Theorems: `C22_policies_are_valid`, `C22_total`, `C22_elements_and_attributes`, `C22_guarded_urls`, `C22_link_rel`, `C22_default_no_event_handlers`, `C22_rawtext`, `C22_no_foreign_drop`, `C22_foreign_is_bare_partial`, `C22_no_foreign_refuted`

### C23 Sanitization removes comments, doctypes and dropped content as configured

For every tree, with drop_comments no comment or processing instruction remains, with drop_doctype no doctype remains, and nothing inside a drop_content element survives.

* Modelled: same.
* Proof: non-interference: two inputs differing only inside dropped content give equal results.
* Status: **proved**. Comments, PIs, doctypes, and non-interference of everything inside dropped-content elements (tree and findings).
* Theorems: `C23_no_comments`, `C23_no_doctypes`, `C23_dropped_content`

### C24 Sanitization is idempotent and never invents text

Sanitizing an already sanitized tree changes nothing; and the text of the sanitized tree (strip/unwrap mode) is a subsequence of the text of the input.

* Modelled: same.
* Proof: second run on the output; witnesses for foreign hoisting and escape mode.
* Status: **partial**. Idempotence for policies with idempotent value checks (built-in policies included), trees without foreign elements or drop mode; general statement refuted (foreign hoist, escape mode). Text is a subsequence: proved (not escape mode, script/style not allowed).
* Theorems: `C24_idempotent_partial`, `C24_default_idempotent_partial`, `C24_text`, `C24_exact_structure_partial`, `C24_foreign_refuted`, `C24_escape_refuted`

### C25 Already-clean trees pass through unchanged

A tree whose elements, attributes, URLs and text already satisfy the policy is returned unchanged by sanitization.

* Modelled: same, SanSpec.clean.
* Proof: tree induction: every step is the identity on clean trees.
* Status: **proved**. Clean trees (spec in SanSpec.v) come back unchanged with no findings.
* Theorems: `C25_clean_unchanged`

### C26 unsafe_handling=raise raises iff something unsafe was found; collect reports each finding

For every tree and policy, in 'raise' mode sanitization raises exactly when in 'strip' mode it would report at least one finding, and in 'collect' mode the same tree results as in 'strip' mode with one error per finding in document order.

* Modelled: SanHandlerModel: strip, raise, collect.
* Proof: simulation between the modes; sorting lemmas.
* Status: **proved**. strip/raise/collect agree; collect: permutation of findings, sorted, stable, independent of history, other errors in the sink kept. In raise mode the model computes the rest of the run and ignores it.
* Theorems: `C26_strip`, `C26_raise`, `C26_raise_iff_collected`, `C26_collect`

### C27 Character references decode as HTML specifies and decoding never fails

For every text, decoding character references returns the text the HTML standard's character-reference states produce (in text and in attributes) and never raises.

* Modelled: EntitiesModel vs. HtmlCharRefSpec over the full entity table.
* Proof: exact agreement by cases; the longest-prefix search by computation over the table in the kernel.
* Status: **partial**. Proved whenever no reference's ASCII characters run directly into a letter or digit outside ASCII (exactly the places the code looks at); outside that the claim is false and refuted by witnesses, including an uncaught ValueError.
* Theorems: `C27_charrefs_decode_as_html_partial`, `C27_charrefs_decode_plain`, `C27_text_without_amp_unchanged`, `C27_raises_refuted`, `C27_nonascii_digits_refuted`, `C27_attribute_refuted`

### C28 DOM mutations keep the tree a tree

After any sequence of append_child / insert_before / replace_child / remove_child / clone / fragment insertion calls, parent and child links agree, no node occurs twice, there are no cycles, and failing calls leave the tree unchanged.

* Modelled: DomModel: heap of nodes with parent/children pointers, every method of dom/__init__.py.
* Proof: invariant over all histories of calls.
* Status: **partial**. Forest (parent/child agreement, no duplicates, no cycles) proved after every history of calls; exact effect of append/insert/replace/remove, exceptions change nothing, termination. Downward acyclicity through template contents proved when no template_content object is passed to an insertion method, refuted otherwise (C28_template_content_cycle_refuted).
* Theorems: `C28_forest`, `C28_full_forest_partial`, `C28_failing_calls_change_nothing`, `C28_editing_terminates`, `C28_append_child`, `C28_insert_before`, `C28_insert_before_none`, `C28_replace_child`, `C28_remove_child`, `C28_template_content_cycle_refuted`

### C29 Deep cloning yields an equal, disjoint tree

clone_node(deep=True) returns a tree with the same names, attributes, data and structure that shares no node with the original, and leaves the original unchanged.

* Modelled: clone_node's explicit stack.
* Proof: simulation with the recursive copy.
* Status: **partial**. Deep clone: terminates, same tree, fresh nodes and dicts, originals untouched, on every history that never re-inserts a template_content object (refuted otherwise). Shallow clone with override_attrs exact. Deep clones ignore override_attrs (refuted theorem).
* Theorems: `C29_deep_clone`, `C29_shallow_clone`, `C29_deep_clone_may_not_end_refuted`, `C29_deep_ignores_override_refuted`

### C30 Selector matching is sound for CSS

Whenever matches()/query() reports that an element matches a selector, the element matches it under CSS semantics for the supported selector subset.

* Modelled: SelModel (parser and matcher) vs. SelSpec / SelTextSpec.
* Proof: grammar-based reading, then matcher soundness.
* Status: **partial**. Grammar-based text semantics (parser proved against it); sound for every selector without combinators inside :not() whose left parts are anchored; the exceptions are refuted with witnesses.
* Theorems: `C30_parse`, `C30_numbers_do_not_matter`, `C30_matches_sound_partial`, `C30_query_sound_partial`, `C30_not_refuted`, `C30_document_node_refuted`, `C30_doctype_refuted`

### C31 Selector matching is complete for CSS

Whenever an element matches a supported selector under CSS semantics, matches()/query() reports it.

* Modelled: same.
* Proof: completeness under nearest_ok; witnesses for the greedy ancestor search and its cache.
* Status: **partial**. Exact for selectors where the nearest candidate suffices (nearest_ok), for query() also descendants_apart; greedy ancestor choice and the ancestor cache are refuted with witnesses (both are defects of the code).
* Theorems: `C31_matches_complete_partial`, `C31_query_complete_partial`, `C31_nearest_ancestor_refuted`, `C31_query_cache_refuted`

### C32 :nth-child(An+B) arithmetic is right

For every A, B and index, the nth test is true exactly when index = A*n+B for some integer n >= 0.

* Modelled: nth-child arithmetic and An+B parsing.
* Proof: integer arithmetic.
* Status: **proved**. Arithmetic for all integers, the An+B notation, and end to end from the selector text.
* Theorems: `C32_nth_arithmetic`, `C32_nth_notation`, `C32_nth_selectors`

### C33 query returns matches in document order without duplicates and the tag fast path agrees with the general path

For every tree and selector, query returns exactly the matching descendants (root excluded), each once, in document order; for simple tag selectors the fast path returns the same list as the general matcher.

* Modelled: query, query_one, fast paths.
* Proof: document order and absence of duplicates as list lemmas.
* Status: **proved**. Order, no duplicates, termination for every selector; tag fast path exact and equal to the general matcher; 'exactly the matches' for other selectors is C30/C31.
* Theorems: `C33_document_order`, `C33_query_in_document_order`, `C33_query_terminates`, `C33_matches_terminates`, `C33_tag_query`, `C33_tag_query_agrees`

### C34 Byte input is never decoded as UTF-7 and decoding always picks a supported encoding

For every byte string and transport label the chosen encoding is one of the seven supported names (never utf-7), a BOM wins over everything, then the transport label, then a meta declaration, else windows-1252, and a meta declaration never selects UTF-16.

* Modelled: EncModel: byte-level sniffing.
* Proof: branch-wise against EncSpec.
* Status: **proved**. decode_html/sniff_html_encoding and the prescan modelled byte by byte; the decoders themselves (bytes.decode) are Python's. C34_meta_found covers the usual spellings of the tag after text and comments; C34_meta_or_default is for all inputs.
* Theorems: `C34_supported`, `C34_bom`, `C34_transport`, `C34_unknown_label`, `C34_meta_or_default`, `C34_meta_found`, `C34_default`

### C35 The encoding prescan terminates and looks at a bounded prefix

For every input the meta prescan terminates; bytes after the scan cap cannot change the chosen encoding.

* Modelled: same.
* Proof: measure for termination; window lemmas.
* Status: **proved**. Termination, the 65536-byte window and the 1024-byte text limit for all inputs.
* Theorems: `C35_prescan_terminates`, `C35_window`, `C35_later_bytes`, `C35_text_limit`

### C36 Linkify reports exact, ordered, non-overlapping spans and only safe schemes

For every text, each reported link's text equals text[start:end], links are ordered and do not overlap, each href starts with http://, https://, ftp://, mailto: or // (case-insensitively), and finding links never raises.

* Modelled: LinkModel incl. the candidate regex as a matcher.
* Proof: span lemmas.
* Status: **partial**. Spans exact, ordered, disjoint, safe hrefs, boundary, known TLD or allowed IPv4, nothing lost by the overlap filter: all proved for the modelled candidate regex, and the span/href part for any candidate finder. 'Never raises' holds for texts whose digits are decimal; it is refuted in general (finding: 1.2.3.<superscript 2> raises ValueError).
* Theorems: `C36_spans`, `C36_spans_any_finder`, `C36_surroundings`, `C36_fuzzy`, `C36_brackets`, `C36_href`, `C36_authority`, `C36_maximal`, `C36_never_raises_partial`, `C36_never_raises_refuted`

### C37 Linkifying text preserves the text

Splitting a text node at the reported links and concatenating the pieces gives back the original text.

* Modelled: linkify on trees.
* Proof: tree induction; divergence witness.
* Status: **partial**. Proved on whole trees for every skip_tags containing 'a' (the default): terminates, only text nodes outside skipped elements change, text preserved. Refuted for skip_tags without 'a' (never terminates).
* Theorems: `C37_pieces`, `C37_links`, `C37_tree`, `C37_text_kept`, `C37_skipped`, `C37_skip_tags_refuted`

### C38 The open-element stack index answers like a plain scan

For every history of push/pop/insert/remove/replace/truncate operations, every lookup on the indexed stack returns what a linear scan of the stack returns, independent of when the index was built.

* Modelled: StackModel: the open-element stack with its counters.
* Proof: refinement of a plain list over all histories.
* Status: **proved**. Every history of append/insert/setitem/pop/remove/del (index and positive-step slice) over distinct nodes: same list and same exceptions as a plain list, and all twelve lookups equal the scan of that list. Four lookups assume the bottom element is not itself a match (true of the document root; Example C38_bottom shows the difference otherwise).
* Theorems: `C38_same_list`, `C38_last_index_of`, `C38_last_index_of_any`, `C38_last_html_index_of`, `C38_last_html_index`, `C38_last_rendered_index`, `C38_last_html_index_of_any`, `C38_last_foreign_boundary_index`, `C38_last_scope_boundary_index`, `C38_last_template_boundary_index`, `C38_contains`, `C38_index_of_node`, `C38_count_of`

### C39 Comments end where HTML says they end

For every input, the parser's comment scanner ends a comment at exactly the position where the HTML tokenizer's comment states do, with the same data.

* Modelled: ScanModel: comment scanner.
* Proof: agreement with the comment states; three witnesses.
* Status: **partial**. The comment scanner gives the data and the end of the standard's comment states on every string, except three classes shown to be refuted by witnesses: a comment starting with !>, an odd run of at least three dashes before !>, and an unfinished comment ending with --!.
* Theorems: `C39_comment_partial`, `C39_bang_first_refuted`, `C39_three_dashes_refuted`, `C39_unfinished_refuted`

### C40 Attributes are parsed as the HTML tokenizer parses them

For every tag source, the raw parser's attribute list (names, values, first-wins duplicates, self-closing flag, end position) equals the HTML tokenizer's.

* Modelled: AttrModel: _parse_all_attrs/_skip_attrs.
* Proof: agreement with the attribute states.
* Status: **partial**. _parse_all_attrs and _skip_attrs against the attribute states of the standard's tokenizer: names, values, order, first-wins, self-closing flag and end, for start and end tags; unconditional for ASCII. Hypotheses only where the code differs (witnesses): cased non-ASCII letters in names (str.lower) and references followed by non-ASCII alphanumerics.
* Theorems: `C40_attributes_partial`, `C40_ascii`, `C40_skip_agrees`, `C40_first_wins`, `C40_case_refuted`, `C40_reference_refuted`, `C40_raises_refuted`

### C41 The fused safe-mode attribute parser agrees with parse-then-sanitize

For every tag source, the default safe parser's attribute dict equals parsing all attributes and then applying the policy's attribute rules.

* Modelled: AttrModel: the fused parse-and-sanitize of attributes.
* Proof: equality with parse-then-sanitize.
* Status: **partial**. The one-pass parser equals parse-then-sanitize for closed tags with distinct names, none starting with =, and values without CR and NUL; each hypothesis is needed (five witnesses). Unconditionally, every attribute it gives has an allowed name and a value accepted by its URL rule, or is kept for parser state only. The URL rule and the invisible-character filter are parameters here (modelled in UrlModel / MiscModel).
* Theorems: `C41_fused_partial`, `C41_safe`, `C41_rest_is_suffix`, `C41_duplicates_refuted`, `C41_equals_refuted`, `C41_carriage_return_refuted`, `C41_nul_refuted`, `C41_unclosed_refuted`

### C42 Raw text and script end tags are found where HTML says

For every input and raw-text element name, the scanner finds the end tag at exactly the position the HTML tokenizer's RAWTEXT / script-data states leave the element.

* Modelled: ScanModel: raw text end finders.
* Proof: agreement with RAWTEXT/RCDATA/script states.
* Status: **partial**. find_rawtext_end_tag and find_script_end_tag against the standard's RAWTEXT, RCDATA and script data states: the text is always the standard's (script: when the end tags inside an escaped script have plain tails), and the parser resumes where the standard does when the end tag has no quotation marks. Witnesses show both hypotheses are needed.
* Theorems: `C42_rawtext_text`, `C42_rawtext`, `C42_rcdata`, `C42_script_text`, `C42_script_partial`, `C42_quote_refuted`, `C42_script_refuted`

### C43 The streaming API loses and invents no text and always terminates

For every input the stream scanner terminates, its events cover the input in order, and the concatenated text of the events is the text content of the input.

* Modelled: StreamModel: all of stream.py.
* Proof: covering relation StreamSpec between input and events; stack invariant.
* Status: **partial**. The scanner of stream.py (whole file): for every string it ends, its open-element bookkeeping never fails and the events cover the html piece by piece in order (C43_events, C43_ends; the only exception is the ValueError of C27). The specification determines every piece: tag names, attribute lists (first wins), comment ends, doctype identifiers, end-tag tails, raw-text ends, unfinished tags. C43_text, C43_no_empty_text, C43_attribute_names. Partial: foreign content after an svg/math tag and script text containing <!-- are left open by the specification.
* Theorems: `C43_events`, `C43_ends`, `C43_text`, `C43_no_empty_text`, `C43_attribute_names`

### C44 Quirks mode is decided as HTML specifies

For every doctype the reported quirks mode equals the HTML standard's decision table.

* Modelled: DoctypeModel.
* Proof: against an independent DOCTYPE tokenizer and the quirks tables.
* Status: **partial**. Tokenizer half: parse_doctype agrees with an independent WHATWG DOCTYPE tokenizer whenever that one does not set force-quirks, and never sets the flag wrongly; mode half: the quirks / limited-quirks tables agree from source text to mode. Refuted (with witnesses): one missing public-id prefix, empty system identifier treated as missing, force-quirks lost after PUBLIC/SYSTEM, srcdoc documents with the flag.
* Theorems: `C44_token_partial`, `C44_force_sound`, `C44_extent`, `C44_mode_partial`, `C44_table_partial`, `C44_srcdoc_partial`, `C44_missing_prefix_refuted`, `C44_empty_system_refuted`, `C44_force_refuted`, `C44_srcdoc_refuted`

### C45 Markdown text cannot become HTML or leave its code span

For every text, the Markdown rendering of a text node contains no unescaped '<' or '&', and a code span's fence is longer than any backtick run inside it so the span ends only at its own closing fence.

* Modelled: MdModel: markdown.py.
* Proof: inline grammar (MdGrammar) as invariant of the output buffer.
* Status: **partial**. Text nodes: displayed as their words, no <, no & outside &lt;/&amp;. Code spans: closed by their own fence and the content comes back, except for a text that is one line break (refuted: it yields two backticks and exposes later code as HTML). pre: one fenced block, except with a CR inside a blockquote (refuted). Whole documents without img/table/pre follow an inline grammar. Refuted too: block starts (##, -), reference definitions, ! before a link.
* Theorems: `C45_text`, `C45_text_html`, `C45_rule`, `C45_code_span_partial`, `C45_code_span_plain`, `C45_code_span_content`, `C45_fence`, `C45_pre`, `C45_document_partial`, `C45_code_span_refuted`, `C45_pre_refuted`, `C45_block_start_refuted`, `C45_reference_refuted`, `C45_image_refuted`, `C45_code_space_refuted`

### C46 Markdown link destinations stay inside their delimiters

For every URL, the Markdown link destination contains no whitespace and either no parentheses/angle brackets or is one <...> group, so it cannot terminate the link early.

* Modelled: MdModel: destinations.
* Proof: percent-decoder and CommonMark destination scan.
* Status: **partial**. Shape of every destination; <...> destinations end where written and percent-decode to the URL; bare ones end where written and are the URL if they hold no backslash and no control character. Refuted: trailing backslash, form feed, character references (a javascript: URL the default policy keeps).
* Theorems: `C46_shape`, `C46_wrapped`, `C46_bare_partial`, `C46_total`, `C46_link_partial`, `C46_backslash_refuted`, `C46_whitespace_refuted`, `C46_entity_refuted`

### C47 Invisible Unicode is fully removed and nothing else is

With strip_invisible_unicode every text and attribute value of the result contains none of the listed invisible code points and is the input with exactly those code points deleted.

* Modelled: invisible-character filter, on strings and through the sanitizer.
* Proof: character-wise; tree invariant.
* Status: **partial**. Function level complete (exactly the listed code points are deleted, for every string). Sanitized trees: no listed code point in any text or attribute value, fully for the built-in policies; custom policies need idempotent URL/CSS rules and no escape mode (refuted there).
* Theorems: `C47_exact`, `C47_none_left`, `C47_idempotent`, `C47_text_partial`, `C47_attrs_partial`, `C47_default`, `C47_escape_refuted`

### C48 Error lists are bounded, sorted and stable

For every list of parse errors and every max_errors, the errors exposed number at most max_errors, are sorted by (line, column) with unknown positions last, ties keep emission order, and no error is lost or duplicated by sorting.

* Modelled: error bookkeeping.
* Proof: bounded, stable insertion sort.
* Status: **proved**. Bounded by max_errors, permutation of the first max_errors reported, sorted by position, stable; positions below 10^9 (the sort key for a missing position).
* Theorems: `C48_bounded`, `C48_nothing_lost`, `C48_sorted`, `C48_stable`

### C49 Attribute glob patterns match as documented

For every pattern and attribute name, DropAttrs/AllowlistAttrs-style patterns match exactly when '*' and '?' wildcards can be expanded to the name.

* Modelled: glob matcher.
* Proof: backtracking invariant vs. the inductive matching relation.
* Status: **partial**. Matcher terminates and is sound for all inputs, complete for names without a literal star (refuted otherwise); DropAttrs removes exactly the matching attributes for lower-case, non-blank, star-free names; default patterns exact for every name.
* Theorems: `C49_terminates`, `C49_sound`, `C49_exact_partial`, `C49_star_in_name_refuted`, `C49_drop_attrs_partial`, `C49_default_patterns`, `C49_blank_name_refuted`

### C50 Whitespace collapsing is idempotent and only touches whitespace

For every text, collapsing whitespace twice equals once, removes no non-whitespace character, leaves no two adjacent HTML spaces, and keeps order.

* Modelled: three whitespace functions.
* Proof: loop invariants.
* Status: **partial**. CollapseWhitespace and formatting normalisation fully; pretty-printer collapse = words joined by one space for texts whose white space is HTML white space (refuted for U+00A0).
* Theorems: `C50_collapse`, `C50_collapse_idempotent`, `C50_collapse_content`, `C50_pretty_partial`, `C50_words_exist`, `C50_pretty_idempotent_partial`, `C50_nbsp_refuted`, `C50_formatting`, `C50_formatting_exact`

### C51 ASCII case folding for marker searches preserves offsets

For every text, the folded copy used for marker searches has the same length, changes no character into or out of ASCII other than A-Z to a-z, so offsets found in it are valid in the original.

* Modelled: ascii_lower.
* Proof: character-wise.
* Status: **proved**. 
* Theorems: `C51_ascii_lower_preserves_offsets`

### C52 Line/column positions are exact

For every input and offset, the reported (line, column) is one plus the number of newlines before the offset and one plus the distance to the last of them; the mapping is injective and monotone.

* Modelled: line/column bisect.
* Proof: binary search invariant.
* Status: **proved**. Exact line/column for every offset and text, strictly monotone, offsets past the end clamp.
* Theorems: `C52_exact`, `C52_lines_and_columns`, `C52_monotone`, `C52_past_the_end`

### C53 Noah's Ark and formatting-list bookkeeping

For every history of formatting start tags, end tags and markers, at most three live entries with equal name and attributes exist after the last marker, and the index used to find duplicates agrees with a scan of the list.

* Modelled: FmtModel: list of active formatting elements with lazy retirement and index.
* Proof: refinement of the standard's list over all histories.
* Status: **proved**. Every history of operations on the list of active formatting elements (push with Noah's Ark, fast push, markers, clear, lazy retire, compaction, replacement by the adoption agency) keeps its live view equal to the plain list of the standard, at most three equal entries after the last marker, and the index agrees with a scan. Precondition of Replace (ok_op): the clone goes after the last marker and after its equals; where the adoption agency puts the bookmark is not part of C53. Entry nodes and the DOM are not modelled.
* Theorems: `C53_step`, `C53_at_most_three`, `C53_duplicate`, `C53_find`, `C53_retired`

### C54 Pretty-printing changes white space only

For every tree HTML syntax can express, every indent and indent size, the output of to_html(pretty=True) - the default - is read by an HTML5 tokenizer as exactly the same tags, attributes, comments and doctypes as the compact output, and as the same characters except for white space outside code/pre/script/style/textarea; those elements are written byte for byte as in the compact output; it raises exactly when the compact serializer raises.

* Modelled: PrettyModel: _node_to_html with all layouts vs. HtmlTokSpec, PrettySpec.settled/markup.
* Proof: every line template yields well-formed pieces whose tokens equal the compact ones up to white space; tree induction.
* Status: **proved**. Markup equality for all expressible trees; text equality additionally needs that no iframe/noembed/noframes/xmp mentions its own end tag (C55_rawtext_refuted shows this is necessary). Documents only as root.
* Theorems: `C54_same_markup`, `C54_same_text`, `C54_tokens`, `C54_raises`, `C54_raises_only`, `C54_preformatted`

### C55 Pretty-printing keeps the words of the text

For every tree, pretty-printing neither joins two words of the text nor splits one, and drops no character that HTML does not treat as white space.

* Modelled: same.
* Proof: witnesses; positive part for one text.
* Status: **partial**. Proved for elements holding one text. Refuted in general by kernel-checked witnesses: words joined, one word split, no-break space dropped, raw text changed.
* Theorems: `C55_text_partial`, `C55_words_joined_refuted`, `C55_word_split_refuted`, `C55_nbsp_refuted`, `C55_rawtext_refuted`

### C56 Text extraction is complete and ordered

For every tree, to_text joins exactly the (stripped, non-empty) data of its text nodes in document order, template contents included; with separator_blocks_only the separator stands exactly between the non-empty runs of text delimited by block elements and br; with separator '' and strip=False nothing is lost; the text :contains() searches is to_text(' '), and the characters an HTML tokenizer reads from to_html's output are the text.

* Modelled: TextModel: to_text on trees.
* Proof: tree induction against the token-free specification.
* Status: **proved**. All trees, separators and flags. C56_br_content_refuted: separator_blocks_only drops text inside a br element (only the DOM API can build one). C56_same_as_html assumes trees HTML syntax can express, as C09.
* Theorems: `C56_texts_defined`, `C56_text`, `C56_blocks`, `C56_nothing_lost`, `C56_blocks_nothing_lost`, `C56_br_content_refuted`, `C56_contains`, `C56_same_as_html`

### C57 Transforms do what they say, batched or not

For every tree, selectors and callbacks: a pipeline terminates; Drop removes exactly the matching elements, Empty their content, Unwrap and Decide(UNWRAP) replace them by their content, SetAttrs and EditAttrs change only the attributes they name or return, DropComments/DropDoctype remove exactly those nodes, and everything else stays as it was, in order; running several transforms in one walk gives the same tree as running them one after another.

* Modelled: TransModel.
* Proof: tree induction.
* Status: **partial**. Totality, exact effect of every single transform (any selectors and callbacks looking at a node's name and attributes) and batching when only the first transform of a batch hoists are proved; the unrestricted batching claim, Unwrap on directly nested matches, SetAttrs with None and the fused Decide/EditAttrs chains are refuted by kernel-checked witnesses. Selectors that look at ancestors or siblings are outside the local_t hypothesis.
* Theorems: `C57_total`, `C57_batch_partial`, `C57_hoist_refuted`, `C57_hoist_attrs_refuted`, `C57_collapse_refuted`, `C57_decide_chain_refuted`, `C57_drop`, `C57_drop_comments`, `C57_drop_doctype`, `C57_drop_complete`, `C57_bulk_drop`, `C57_empty`, `C57_set_attrs`, `C57_set_values`, `C57_set_others`, `C57_set_none_partial`, `C57_set_none_refuted`, `C57_edit_attrs`, `C57_edit_chain_refuted`, `C57_decide_unwrap`, `C57_decide_unwrap_complete`, `C57_unwrap_partial`, `C57_unwrap_nested_refuted`, `C57_unwrap_flat`, `C57_text_kept`

### C58 CollapseWhitespace changes white space only and keeps the words

For every tree and every skip_tags, trim_blocks and block_tags: CollapseWhitespace changes nothing but the HTML white space of text outside the skipped elements, leaves only single spaces there, keeps the words of the shown text - paragraph by paragraph, across inline elements, comments and hidden elements - and trims the start (and end) of block containers; running it again changes nothing.

* Modelled: TransModel: CollapseWhitespace on trees.
* Proof: tree induction against TidySpec (words per paragraph).
* Status: **partial**. Shape, words, single spacing and leading edges are proved for all trees and options; trailing trimming and idempotence with trim_blocks=True are refuted by a witness (idempotence proved for trim_blocks=False).
* Theorems: `C58_shape`, `C58_words`, `C58_leading`, `C58_trailing_refuted`, `C58_idempotent_partial`

### C59 PruneEmpty removes exactly the empty matching elements

For every tree and selectors: PruneEmpty removes exactly the matching non-void elements that have, after pruning inside them, no element children and no (non-blank) text; none is left, a second run changes nothing, the root, void elements, comments in kept elements and all (non-blank) text stay in order.

* Modelled: TransModel: PruneEmpty on trees.
* Proof: tree induction against TidySpec.
* Status: **partial**. Everything proved for all trees and selectors; exactness needs selectors that do not match the doctype - PruneEmpty('*') removes it (refuted).
* Theorems: `C59_exact_partial`, `C59_doctype_refuted`, `C59_none_left`, `C59_idempotent`, `C59_texts`, `C59_root`

### C60 The finishing passes of the default sanitizer take out exactly what was recorded

For every tree and every set of recorded nodes: the passes that end a parse with a built-in default policy raise nothing, keep a well-formed tree, remove exactly the nodes recorded to be dropped with all they contain, replace the nodes recorded to be unwrapped by their children, keep everything else in order and nesting; the result depends on the set of recorded nodes only - not on their number (the batch threshold), order or duplicates - so if every node is allowed or recorded, only allowed nodes are left.

* Modelled: FinishModel: child lists and parent links of numbered nodes, both unwrap strategies.
* Proof: forest invariant; refinement of tree surgery (hoist, prune).
* Status: **proved**. Trees of numbered nodes with children lists and parent links; both strategies of the unwrapping pass, the dropping pass and the removal of the fragment context, for all forests and all sets of recorded nodes. That every disallowed node is recorded while the tree is built is not part of the model.
* Theorems: `C60_finish`, `C60_context`, `C60_nodes`, `C60_order`, `C60_harmless`, `C60_threshold`, `C60_set`

### C61 selectedcontent mirrors the chosen option, at bounded cost, and stays sanitized

For every document: filling selectedcontent elements ends, copies at most as many nodes as the input has characters and leaves all original nodes as they were; every selectedcontent of a select outside the chosen option shows the content of the chosen option (last with selected, first if multiple, else first enabled, none in a datalist) and nothing else changes; whatever the default policy has to take out of the document is still taken out of the copies.

* Modelled: SelectModel: the scan, clone, record and walk of _project_selectedcontent.
* Proof: invariants over fresh node numbers; view of the tree against SelectSpec; witness for nested selects.
* Status: **partial**. Termination, budget, untouched originals and one select element: proved for all trees. Whole document and recording of the copies: proved if no select is inside a select; refuted otherwise (C61_recorded_refuted: a javascript: link survives the default sanitizer).
* Theorems: `C61_bounded`, `C61_select`, `C61_document_partial`, `C61_recorded_partial`, `C61_sanitized_partial`, `C61_recorded_refuted`

### C62 A misnested formatting end tag has the effect of the HTML standard

For every stack of open elements and list of active formatting elements: an end tag such as </b> or </a> creates and moves the same elements in the same order, and leaves the same open elements and the same active formatting elements, as the adoption agency algorithm of the HTML standard (with its fall back to any other end tag); no exception is raised.

* Modelled: AaaModel: _adoption_agency with its list helpers.
* Proof: simulation against AaaSpec, the algorithm of the standard on lists without indices; invariant relating the bookmark index to the bookmark; witnesses.
* Status: **partial**. Proved: same tree operations, stack, and (unless eight rounds are used up) list as the standard, for HTML elements, when the element is listed and not in the step-2 situation; identical below eight special elements; current node of the name with nothing listed. Refuted by witnesses: bookmark after eight rounds, any other end tag, unlisted current node, foreign scope boundaries.
* Theorems: `C62_adoption_agency_partial`, `C62_few_blocks`, `C62_current_node`, `C62_bookmark_refuted`, `C62_any_other_refuted`, `C62_current_refuted`, `C62_foreign_refuted`

### C63 element() builds exactly the element its arguments describe, and what is built can be serialized

For every argument: element(name, attrs, *children, namespace=...) returns if and only if name is written tag[attr][attr=value][attr="value"]... with a tag and attribute names that HTML can carry and no attribute twice, the namespace is html, svg or math(ml), the mapping adds only further such names, and the children are strings, nodes, None, False or nested iterables of these; the element then has the tag, the shorthand attributes followed by the mapping's, and the children in reading order (in the contents of an html template); everything else raises. No tree built this way makes to_html raise, and the start tag written reads back as that tag with those attributes.

* Modelled: BuilderModel: all of dom/builder.py vs. BuilderSpec (shorthand grammar, flattening relation).
* Proof: induction on the brackets for both directions of the equivalence; stack loop = recursive flattening; mutual induction over built trees for serializability; witness for a name ending in a newline.
* Status: **partial**. Equivalence, totality, unique reading, serializability and read-back proved for all arguments. Partial: an attribute name that ends in a newline is accepted although HTML cannot carry it (C63_newline_refuted); children that already have a parent are covered by DomModel (C28), not here.
* Theorems: `C63_element`, `C63_element_total`, `C63_doctype`, `C63_shorthand_one_reading`, `C63_flatten_one_reading`, `C63_built_serializes`, `C63_built_start_tag`, `C63_newline_refuted`

### C64 Formatting reopened lazily is the formatting of the standard

For every history of start tags, end tags, text, table cells, templates and misnested formatting: reopening the active formatting elements only when a flag says that one may be closed builds the same elements for the same tokens in the same places as the HTML standard, which checks before every text and most start tags; reopening never raises.

* Modelled: ReconModel: reconstruction, the flag, and the changes of stack and list as events vs. ReconSpec (the standard's algorithm run every time).
* Proof: rewinding and advancing over slots = the standard on the live list; invariant: flag clear -> every entry since the last marker is open; simulation over histories; witnesses for templates, captions and an out-of-order list.
* Status: **partial**. Reconstruction itself is proved for every state (C64_reconstruct) and the lazy flag for every history in which: text directly in a caption finds nothing to reopen, a template ends with nothing to reopen, and the adoption agency leaves the list in stack order. Each of the three restrictions is shown necessary by a _refuted theorem. Which start tags reconstruct is a parameter, the same on both sides.
* Theorems: `C64_reconstruct`, `C64_lazy_partial`, `C64_clear_flag_means_open`, `C64_template_refuted`, `C64_caption_refuted`, `C64_order_refuted`

### C65 Everything the default sanitizer's parser puts into the tree is sanitized or recorded

For every input to a parse with a built-in default policy: every element the parser creates - from a start tag, implied, reopened, cloned for misnested formatting, inside or outside foreign content - is an HTML element of an allowed tag whose attributes are all allowed there with values that passed the URL rules, or it is recorded to be dropped or unwrapped; so after the finishing passes only sanitized elements are left.

* Modelled: GuardModel: the four insertion paths, namespaces, formatting entries, clones, records (on AaaModel, ReconModel, AttrModel) vs. GuardSpec.
* Proof: invariant over histories: every element made so far is sanitized or recorded, every formatting entry holds sanitized attributes; the invariant fails in one case, which tame names and C65_link_refuted exhibits.
* Status: **partial**. Proved for all histories without the case tame excludes (an a start tag which, after an earlier a was closed, would be made a foreign element), in particular for all input without svg and math start tags; without that condition the property is false (C65_link_refuted: a javascript: link survives the default sanitizer). Not modelled: which elements are closed when (the stack may be set to any list).
* Theorems: `C65_accounted_partial`, `C65_finished_partial`, `C65_no_foreign_partial`, `C65_html_partial`, `C65_link_refuted`

### C66 In the body, ordinary start and end tags open and close what the HTML standard says

For every history of ordinary tags in the body of a document (blocks, paragraphs, headings, lists, definitions, buttons, ruby, void and unknown elements, SVG and MathML with their integration points), with formatting elements opened, closed and moved in between: each tag makes the same element, in the same namespace and place, and leaves the same elements open as the tree construction rules of the HTML standard; so a paragraph never holds a block, and HTML never ends up in foreign content except at integration points.

* Modelled: CloseModel: what start and end tags close and open on the stack of open elements, and the namespace of what is made, vs. CloseSpec (the rules of the standard).
* Proof: every search of the two sides is one search with two predicates; invariant on the stacks reached (HTML elements sit on HTML or integration points, foreign elements have no breakout names, no block in a paragraph, no dd in a dd) makes the predicates agree; foreign elements on top are transparent; step and history theorems; witnesses for every case left out.
* Status: **partial**. Equality with the standard for every history of ordinary tags and changes of formatting, except in the cases ok_start and ok_end leave out, each of which a refuted theorem shows to be a deviation; invariants of the stacks reached; the deep search equals the plain one on every stack. Left out: tables, select, forms, templates, head and raw text elements, fragments; positions.
* Theorems: `C66_history_partial`, `C66_start_partial`, `C66_end_partial`, `C66_paragraphs_partial`, `C66_foreign_partial`, `C66_definitions_partial`, `C66_body_stays_partial`, `C66_deep_search`, `C66_dd_start_refuted`, `C66_dd_end_refuted`, `C66_button_refuted`, `C66_ruby_refuted`, `C66_li_refuted`, `C66_dialog_refuted`, `C66_points_refuted`

### C67 The tags of tables open and close what the HTML standard says

For every history of the tags of tables (table, caption, colgroup, col, tbody, thead, tfoot, tr, td, th), with other elements opened and closed in between: each tag makes the same elements in the same places, and leaves the same open elements and the same active formatting elements, as the insertion modes for tables of the HTML standard, although the parser keeps no insertion mode; cells are always in rows, rows in sections, sections, captions and column groups in tables, columns in column groups.

* Modelled: TableModel: what the ten tags of tables open and close (repair of tables, cells, rows, sections, column groups, markers) on the stack of open elements, vs. TableSpec (the insertion modes of the standard, with a mode variable, reprocessing and the reset algorithm).
* Proof: the stacks reached are a chain of 15 kinds of segments (what is open of each table) with content between them; each tag on each kind of top segment by computation through the searches, which skip content and stop at the table; the standard's mode equals reset of the stack throughout; histories by induction; C67_parents by the shape of each branch on any stack; witnesses for every case left out.
* Status: **partial**. Equality with the standard (open elements, elements made and their places, formatting list, insertion mode) for every history of the ten tags with arbitrary ordinary content between, except the cases ok_tag / ok_marks leave out, each shown to be a deviation by a refuted theorem; C67_parents (nesting of what is made) holds on every stack with a table open. Left out: foster parented text and elements, templates, select, frameset, fragments, positions.
* Theorems: `C67_history_partial`, `C67_formatting_partial`, `C67_modes_partial`, `C67_parents`, `C67_nesting_partial`, `C67_end_points_refuted`, `C67_table_in_point_refuted`, `C67_cell_without_table_refuted`, `C67_row_with_point_refuted`, `C67_col_end_refuted`, `C67_select_refuted`, `C67_foreign_section_refuted`, `C67_colgroup_flag_refuted`, `C67_formatting_refuted`

### C68 Parsing the same tables twice gives the same tree, whatever the hash seed

For every document: what the tags of tables open and close is the same in every run of the program; it does not depend on the order in which Python happens to go through a set of strings, which changes with the hash seed of the process.

* Modelled: TableModel takes the order of the set as a parameter.
* Proof: for any two orders with the same elements each tag gives the same outcome: at most one section is open above the table, except as foreign elements in integration points - which is the witness of C68_order_refuted.
* Status: **partial**. Proved for all tags but col and colgroup on every stack with a table open, and for all histories of C67; false in general (C68_order_refuted: SVG elements named tbody and thead in an integration point).
* Theorems: `C68_order_partial`, `C68_history_partial`, `C68_order_refuted`

### C69 What a table may not hold is put in front of it, as the HTML standard says, and nothing is lost

For every history of text, start tags, comments and elements closed and reopened while tables are open: text that is not white space, and elements that a table may not hold, are put in front of the table (or at the end of the contents of the template that was opened inside it), in order and merged with the text already there, and white space stays in the table, exactly as the HTML standard's foster parenting and table text rules say; whatever the history, all text of the input is in the tree and no node is in two places.

* Modelled: FosterModel: the tree with parent links, _foster_parent_for, _insert_at, _append_text with its pending white space and _insert_raw_element, vs. FosterSpec (appropriate place, insert a character, in table, in table text; one character at a time, places without indices).
* Proof: places: the parser's index is the standard's place on well-formed states (every open table is once among its parent's children, tables and their parts are housed); text: white space inserted and taken back is the identity, chunks = folds of characters; preservation of well-formedness by every event; conservation of text and of links as permutations over arbitrary histories; witnesses.
* Status: **partial**. Equality with the standard (tree, open elements) for every history of text runs, start tags, comments, closings and reopenings, except the cuts of text ok_run leaves out, each shown to be a deviation by a refuted theorem; conservation of text and uniqueness of places hold for every history at all. Documents, raw mode; which elements close is C66/C67; moves by the adoption agency are C62.
* Theorems: `C69_history_partial`, `C69_white_partial`, `C69_nothing_lost`, `C69_one_place`, `C69_space_after_refuted`, `C69_space_before_refuted`, `C69_reference_refuted`, `C69_nothing_between_refuted`, `C69_fragment_refuted`

### C70 Text and comments are cleaned as the standards say

For every input: in text, raw text and comments every CR LF pair and every other CR becomes one LF; NUL is deleted or replaced by U+FFFD; references are decoded after that and invisible code points removed after decoding; surrogate pairs in comments are joined and nothing else changes. With xml_coercion=True every form feed in text becomes a space and every Unicode noncharacter U+FFFD, nothing else changes, doing it twice is doing it once, and the text and the comments of the tree are legal in XML.

* Modelled: CoerceModel: the cleaning chain of text, raw text and comments with its flags and ASCII shortcuts, _coerce_text_for_xml, _coerce_comment_for_xml, _normalize_surrogate_pairs (the loop with its lazily made copy), vs. CoerceSpec (normalize newlines as a relation, XML Char and Comment, noncharacters, UTF-16).
* Proof: the chain is the composition of the relations; coercion is a pointwise map (shortcuts included); hyphens by strong induction; the loop = pairwise joining, which keeps UTF-16 and leaves no pair; witnesses: --- and a final hyphen in comments, C0 controls and surrogates in text.
* Status: **partial**. Newlines, NUL, decoding order, invisible code points, pointwise coercion, surrogate pairs: for every input. Refuted and therefore partial: comments with --- or a final hyphen, and text with C0 controls or lone surrogates, are not legal XML after coercion.
* Theorems: `C70_newlines`, `C70_no_carriage_return`, `C70_text`, `C70_raw_text`, `C70_xml_text`, `C70_coercion`, `C70_xml_characters_partial`, `C70_xml_characters_refuted`, `C70_xml_comment_partial`, `C70_xml_comment_refuted`, `C70_comment_text`, `C70_surrogates`, `C70_surrogates_only`, `C70_comment`

### C71 Processing instructions are read exactly and survive a round trip

For every input: what stands between <? and the next > is a processing instruction exactly if it is a target (a letter or underscore, then letters, digits, hyphens and underscores, not beginning with xml), white space, data, and an optional question mark; its data is the target, a space and the data. The data of every parsed processing instruction, serialized and parsed again, is the same.

* Modelled: CoerceModel: _processing_instruction_data, its cleaning, and the serializer's _serialize_pi_data, vs. the relation instruction of CoerceSpec.
* Proof: the function is the relation (both directions, hence unique); cleaning distributes over target, space and data, so the serialized data is again an instance of the relation with the same data.
* Status: **proved**. Exact relation in both directions and the full round trip, for every content and every flag of the later parse.
* Theorems: `C71_exact`, `C71_unique`, `C71_round_trip`, `C71_clean`

### C72 JustHTML runs exactly the transforms, stages and sanitizing that were asked for

For every list of transforms and stages, policy and flags: after parsing, every enabled transform outside disabled stages is carried out once, from left to right, with its own policy, else the one of the constructor, else the default of the root; each top-level stage (and each run of transforms between stages) begins with its hook, numbered in order; nested stages are flattened and disabled stages are as if absent. With sanitize=True the tree is sanitized, by a last Sanitize if the list has none; nothing that follows a Sanitize shares its walk. The source text of tags is kept whenever something will escape them, selector limits are those of the last enabled Sanitize, TypeError is raised exactly for an object that is no transform, and the fused engine is used only where it stands for that one default Sanitize.

* Modelled: PlanModel: requirements, binding of policies, the appended Sanitize, stages, lowering with chains, the scheduling loop of walks and batches (node functions, callbacks and reports are opaque), vs. PlanSpec (leaves, groups, operations).
* Proof: each rewriting preserves the list of entries (hooks and operations); grouping as a relation shown to be functional; a predicate on compiled lists (a sanitizer part is followed by one or by the end of the walk) kept by lowering; witnesses for a disabled Sanitize, an Edit in the walk of the last Sanitize, limits of HardenRawtext, chained attribute functions.
* Status: **partial**. The trace of hooks and operations is exactly the documented one for every list, policy and flag (C72_runs_what_was_asked), likewise TypeError, the fused engine, the appended Sanitize, source text for escaping, parse limits. Refuted: a disabled Sanitize switches sanitizing off; an Edit in the walk of the final Sanitize can put unsafe content behind it; HardenRawtext changes the limits of matching; chained EditAttrs. Node functions, callbacks and reports are opaque numbers; what they do to nodes is in C22-C24, C36, C57-C59.
* Theorems: `C72_runs_what_was_asked`, `C72_one_grouping`, `C72_type_error`, `C72_fused`, `C72_sanitizes_partial`, `C72_sanitizes_last`, `C72_sanitizes_refuted`, `C72_sanitize_ends_its_walk`, `C72_final_sanitize_partial`, `C72_final_sanitize_refuted`, `C72_source_text_for_escape`, `C72_parse_limits`, `C72_match_limits_partial`, `C72_match_limits_refuted`, `C72_chained_attributes_partial`, `C72_chained_attributes_refuted`

### C73 SVG and MathML names are written in the standard's mixed case and survive a round trip

For every attribute list the parser reads: an element put into the SVG or MathML namespace gets the mixed-case name the standard prescribes, each of its attributes keeps value and place and gets the standard's name for that namespace, no two attributes become one, and elements of other namespaces are unchanged. Names that are written out and read again are the same.

* Modelled: ForeignModel: _prepare_raw_element, _prepare_foreign_attrs and their tables, vs. ForeignSpec (the standard's lists of mixed-case names).
* Proof: the tables are the lists (by computation); lowering again changes no lookup because the keys are ASCII and only U+212A lowers into ASCII; folding is a left inverse of adjusting, hence injectivity and the round trip; witnesses U+212A and fedropshadow.
* Status: **partial**. All attribute names as in the standard, values, places and distinctness kept, for names without U+212A (which the source must spell out); all element names but fedropshadow; round trip. Refuted: U+212A counts as k; feDropShadow is missing from the table.
* Theorems: `C73_source_names`, `C73_attributes_partial`, `C73_names_distinct`, `C73_attributes_refuted`, `C73_elements_partial`, `C73_elements_refuted`, `C73_round_trip`

### C74 A dropped svg or math element takes exactly its own content with it

For every svg or math element that the default policy drops, whatever its content and depth: what is dropped is the content and the end tag, nothing before and nothing after; dropping stops only after an end tag with the element's name (or in it, at the end of the input); everything that is left is dropped only for an unclosed CDATA section or a plaintext tag; an element that is never closed drops nothing by scanning; the scan always ends.

* Modelled: SkipModel: _skip_subtree and its call for dropped svg and math elements, vs. SkipSpec (pieces of foreign content, their source text).
* Proof: the loop shortens the input, so fuel is irrelevant; nested induction over pieces: scanning the source of a piece leaves the count as it was; induction over the loop for where it can stop; witnesses for self-closing roots and for end tags in attribute values and comments.
* Status: **partial**. Proved for all inputs: where the drop stops, when everything is dropped, termination. The main statement holds for content without greater-than signs in attribute values, less-than signs in comments, elements of special_names and self-closing tags with the name of the root; without those restrictions it is refuted by witnesses.
* Theorems: `C74_skips_subtree_partial`, `C74_ends_at_end_tag`, `C74_drops_to_end`, `C74_total`, `C74_unclosed_partial`, `C74_self_closing_refuted`, `C74_inner_self_closing_refuted`, `C74_attribute_refuted`, `C74_comment_refuted`

### C75 The default engine's tables allow exactly what the policy allows

For every tag of the default policies and every attribute list: the default engine, which works from a table compiled from the policy, gives the tag the same attributes with the same values as sanitizing the parsed tree with that policy does, also when reading and sanitizing are done in one pass over the source. Whatever the values, an attribute that is kept is one the policy allows for the tag, and a kept URL has an allowed scheme and is not protocol-relative. The tables allow exactly the policy's tags and drop the content of exactly the policy's.

* Modelled: ActionModel: _compile_tag_actions, compile_engine_plan and _sanitize_parsed_attrs, vs. SanModel (the sanitizer of C01-C11 on a tree), UrlSpec and C41 (reading and checking in one pass).
* Proof: the finite tables of the two default policies by computation; the rest for all names and values: induction over the attributes, C20 for the two URL checks, C12/C14 for the safety of either; witnesses for backslashes, spaces and meta refresh.
* Status: **partial**. Proved for the two default policies (the only ones compiled): same attributes and values as the tree sanitizer, on the attribute list and, with C41's conditions, in one pass over the source; unconditional safety of what is kept; tables allow exactly the policy's tags; the flags of the tables name exactly the standard's elements. Missing: URLs with a backslash, or beginning with two slashes and containing a space, where the two differ (refuted with witnesses).
* Theorems: `C75_same_attributes_partial`, `C75_one_pass_partial`, `C75_safe`, `C75_one_pass_safe`, `C75_tags`, `C75_no_entry`, `C75_unread`, `C75_flags`, `C75_backslash_refuted`, `C75_space_refuted`, `C75_other_policies_refuted`

### C76 The default engine opens and closes elements as the full parser does

For every history of ordinary start and end tags in the body, with formatting elements opened and closed in between: the default sanitizing engine, with its short paths for simple tags, has the same elements open as the full parser and the HTML standard, and makes the same elements in the same places, except void elements the policy removes anyway. Every end tag does the same as in the full parser, whatever is open.

* Modelled: ShortModel: _parse_compiled_safe_start_tag and _parse_compiled_safe_end_tag for ordinary tags, vs. CloseModel (the full parser, C66) and CloseSpec (the standard).
* Proof: the tables by computation; a stack without p makes the repair nothing; repairs keep the current node an HTML element or an integration point (invariant of C66); induction over histories; witness for ruby.
* Status: **partial**. Proved against the full parser (every end tag on every stack; every allowed start tag on every reached stack) and the standard (histories). Missing: rb, rp, rt, rtc, for which the engine lacks the rule (refuted with a witness); what C66 leaves out; reconstruction of formatting elements is outside the model.
* Theorems: `C76_history_partial`, `C76_start_partial`, `C76_allowed_start`, `C76_end`, `C76_ruby_refuted`

### C77 A frameset replaces only a body with nothing in it to lose

For every history of start tags and every tree of the body: a frameset is accepted in place of the body just when the input is no fragment, no frameset was accepted before, no body tag and no tag that blocks it (form controls, embedded objects, list definitions and the like) was read outside a template, and everything in the body is white space, a hidden input, one of the listed harmless elements or foreign content without text. The body is then empty. No content that the HTML standard would keep is lost that way.

* Modelled: FramesetModel: the flag of blocking tags, _accept_frameset, _body_allows_frameset, _foreign_subtree_allows_frameset vs. a specification by reachability, and the standard's frameset-ok flag.
* Proof: generic lemma on the stack walk (induction on fuel, size as measure), order-free; induction over histories; witnesses for span, comments, br in foreignObject.
* Status: **partial**. Proved: exactly which bodies may be replaced, over any tree and any history of tags; what the standard keeps is kept where foreign content holds no HTML elements, no U+FFFD and inputs are empty. Missing: the engine keeps bodies the standard replaces (span, comments), and replaces one with an HTML element inside foreign content (refuted with witnesses); fragments with context html.
* Theorems: `C77_body`, `C77_standard_partial`, `C77_kept_refuted`, `C77_comment_refuted`, `C77_lost_refuted`, `C77_changes`, `C77_accepted`, `C77_accepts`, `C77_template`

## Trusted base

* Coq 8.16.1: the kernel, including its conversion by virtual machine (`vm_compute`) used for table lookups and
  literal examples. `native_compute` is not used.
* Axioms: none of our own, and `Print Assumptions` under every property theorem prints "Closed under the global
  context". vcheck lists seven library axioms (`Coq.ssr.ssrunder.Under_rel.*`); they come with the standard
  library's ssreflect files (loaded through other library modules), they are the abstract signature of the `under`
  tactic, and no theorem here depends on them.
* Sections with `Variable`/`Hypothesis` are closed; the quantified facts appear in the final statements.
* The specifications `*Spec.v` (HTML tokenizer, character references, raw text rules, browser URL preprocessing, CSS
  declarations, selector semantics, CommonMark inline rules, DOM forests, ...) are transcriptions of the standards
  made by reading; they are trusted to say what the English says.
* The correspondence model - Python is by reading: every definition cites the lines it models. Nothing was executed.
* Unicode: `UnicodeTables.v` (isspace, isalnum, isdigit, decimal, lower/upper/casefold data used) and
  `EntityTable.v` are data generated from CPython 3.11's `unicodedata`/`html.entities` by tools/.

## What is modelled

| /repo/src/justhtml | model | not modelled |
|---|---|---|
| core/entities.py | EntitiesModel (all) | - |
| core/constants.py | the tables each model uses | - |
| core/doctype.py, core/text.py, core/rawtext.py | DoctypeModel, SerializerModel | - |
| serializer/html.py | SerializerModel (names, escaping, compact walk, contexts), PrettyModel (pretty walk) | to_test_format; node budgets and memo tables (pure caches) |
| serializer/markdown.py | MdModel (all but the two raw-HTML passthrough renderers for table and img, which call the html serializer) | - |
| dom/__init__.py | DomModel (tree mutation, clone), TextModel (to_text) | properties that only forward (origin_*, query -> selector) |
| sanitizer/url/*, sanitizer/css.py, sanitizer/rawtext.py, sanitizer/dom.py, sanitizer/policy.py | UrlModel, CssModel, SanModel, SanHandlerModel, SanPolicyInit, SanDefaults | `urllib.parse`'s NFKC and `ipaddress` checks are parameters |
| transforms/compile.py, transforms/runtime.py | SanModel (sanitize chain), LinkModel (linkify), MiscModel (globs), TransModel (collapse whitespace, prune empty, drop/unwrap/empty/setattrs), PlanModel (requirements, policies, stages, chains, schedule of walks) | user callbacks |
| transforms/linkify_core.py | LinkModel (incl. the candidate regexes as matchers) | punycode/idna of the standard library |
| selector/core.py | SelModel (tokenizer, parser, matcher, query paths) | LRU caches of compiled selectors |
| parser/encoding.py | EncModel | the codecs |
| parser/stream.py | StreamModel (all) | - |
| parser/scanner.py | ScanModel, AttrModel | - |
| parser/engine.py | AttrModel (attributes, fused and plain), ScanModel (comments, raw text), RawElemModel (raw text elements), DoctypeModel, StackModel (open elements), FmtModel (active formatting elements), FinishModel (drop, unwrap, fragment context), SelectModel (selectedcontent), AaaModel (adoption agency), GuardModel (insertion and recording), ReconModel (reconstruction of formatting, its flag), CloseModel (ordinary tags in the body and in foreign content), TableModel (the tags of tables), FosterModel (text and elements put in front of tables), ForeignModel (names in SVG and MathML), SkipModel (the end of a dropped svg or math element), ActionModel (the tag table of the default engine), FramesetModel (acceptance of framesets), ShortModel (ordinary tags in the default engine), CoerceModel (cleaning of text and comments, processing instructions) | the insertion modes other than the body and tables (head, select, templates, framesets), the tags CloseModel lists in other_rules |
| parser/__init__.py | error bookkeeping, escape helpers, PlanModel (choice of engine, transforms of the constructor) | input decoding by type |
| dom/builder.py | BuilderModel (all) | re-parenting of attached children (DomModel) |
| \_\_main\_\_.py | - | command line |

Tree construction is not modelled as a whole: a statement "the parser builds the tree the standard prescribes" would
need the standard's tree construction as specification (some 100 pages); instead its data structures (stack, list of
formatting elements, attribute and text scanners) are proved against the standard's definitions.

## Findings

Each is a kernel-checked witness (`..._refuted` or an Example), except where marked (candidate).

* CSS: a comment opener inside a string hides later declarations from the checks (C21); U+0130 shifts offsets (C21).
* URL: a value with a space ('h ttps://x') passes allow_relative=False (C17); meta refresh values reach hosts outside
  allowed_hosts (C19); cleaning is not idempotent with backslashes (C20).
* Entities: an uncaught ValueError on Unicode digits, references running into non-ASCII letters (C27).
* Sanitizer: foreign elements survive in unwrap/escape mode (C22), sanitizing twice changes the tree (C24).
* Serializer: names ending in a newline (C03), doctype without a name (C06), adjacent raw text nodes (C07), scripts
  with '<!--' ... '<script' (C08).
* DOM: template contents can form a cycle through insertion methods (C28), deep clone loops on it (C29).
* Selectors: greedy ancestor choice and a wrong ancestor cache (C31), combinators in :not() (C30).
* Linkify: ValueError on superscript digits (C36), endless loop for skip_tags without 'a' (C37).
* Parser: comment end corner cases (C39), attribute names with cased non-ASCII letters (C40), fused attribute parser
  vs. two-step (C41), end tag tails with quotes (C42), stream scanner deviations (C43), doctype quirks (C44).
* Markdown: code span of one newline exposes later HTML (C45); destinations with backslash, form feed or character
  references (C46: a javascript: URL the default policy keeps).
* Pretty printer: joins words, splits words, drops a lone no-break space (C55).
* Transforms: children hoisted by a later transform never see the earlier ones of the same walk, Unwrap leaves directly
  nested matches, SetAttrs(x=None) does not create the attribute, fused Decide/EditAttrs chains differ from running them
  one by one (C57).
* CollapseWhitespace leaves a space at the end of a block before a comment and a blank text, so it is not idempotent (C58);
  PruneEmpty("*") removes the doctype (C59).
* **Default sanitizer bypass**: with a select inside a select, the copies that the second projection makes of copies are
  not recorded, so `<x><svg><select><selectedcontent></selectedcontent><option><select><selectedcontent></selectedcontent>`
  `<option><a href="javascript:alert(1)">click` leaves the link in the sanitized tree (C61_recorded_refuted).
* (candidate) transform marks are keyed by id(node), so a freed node's id can be reused by a new node (CPython-dependent,
  not modelled).
* Adoption agency (C62): the replacement is inserted before the bookmark after a lazy retirement (visible once eight
  rounds are used up: `<b><i>`, nine `<div>`, `x</b>`, nine `</div>`, `y`); an unlisted element of the name is not closed
  (`<b><b><b><b></b></b></b><span>x</b>y`, `<b><b><b><b></b></b></b><p><b></p></b>y`); SVG and MathML integration points do
  not end the scope (`<b><svg><foreignObject><div>x</b>y` moves the div out of the svg).
* Builders (C63): an attribute name ending in a newline is accepted (`$` in the regular expression), and reads back as another.
* Reconstruction (C64): text in a template clears the flag for what follows it (`<p><b></p><template>t</template>x`: x is not
  bold); text directly in a caption is not put back (`<table><caption><p><b></p>x`); after the out-of-order list of C62 an
  element is not reopened.
* **Default sanitizer bypass**: an `a` start tag met in an SVG integration point after an earlier `a` was reopened as an SVG
  element is itself made an SVG element with its attributes as written, and the adoption agency clones it as HTML:
  `<x><svg><desc><p><a></p></desc><desc><a href="javascript:alert(1)"><desc><div>click</a>` leaves a live javascript: link
  (C65_link_refuted).
* Tags in the body against the standard (C66_*_refuted, each with the input): a `dd`/`dt` start tag closes an outer `dd` through
  sections, list items and SVG integration points; `</dd>` is ignored inside a nested `dl`; a `button` start tag closes a button
  outside an `object` or table cell, and one that is an SVG element; `<ruby><p><rb>` leaves the p open and `rt` inside an
  `object` acts on the outer ruby; `<ul><li><svg><desc><li>` closes the SVG; `dialog` is treated as special; an end tag with the name
  of an integration point closes it from inside HTML content; `</audio>` and `</slot>` look through integration points; an
  `annotation-xml` without an HTML encoding does not end scopes.
* Tables against the standard (C67_*_refuted, each with the input): with an integration point open in a cell, `</td>` and `</table>`
  are ignored and `<table>` closes the table around; `<td>` in an integration point with no table open closes everything and puts a
  cell into the root element; `<table><colgroup></col><col>` makes a second column group; the markers a caption or cell set stay in
  the list of formatting elements when a `tr` or `</table>` closes them, so formatting leaks out of the table; SVG elements named
  `tbody` are taken for sections.
* **The tree depends on the hash seed** (C68_order_refuted): `<svg><tbody><thead><tbody><desc><caption>x` leaves different elements
  open depending on the order of the Python set of section names.
* Text in tables (C69_*_refuted): `<table>a< <tr>` leaves the space in the table; `<p><b></p><table> <3` separates the space from
  the rest; `<p><b></p><table>&#32;<tr>` opens a b in front of the table; `<table> </>x` treats `</>` as a token; in a fragment
  with context tbody, `<tr>x` keeps the x in the row.
- C70: with xml_coercion, "---" in a comment becomes "- --", which still holds "--"; a hyphen at the end of the comment stays; C0 controls and lone surrogates in text stay. None of these is legal in XML.
- C72: `transforms=[Sanitize(enabled=False)]` switches sanitizing off although sanitize=True; with `transforms=[Edit(...)]` the final
  Sanitize shares the walk of the Edit, so what the function puts behind the cursor (`node.parent.attrs["onclick"]`) is not sanitized;
  a HardenRawtext changes the limits of matching; a second EditAttrs on the same selector runs on a node that no longer matches.
- C73: `fedropshadow` is not in the table of SVG names (`<svg><feDropShadow>` comes out as fedropshadow); an attribute spelled with
  U+212A for k, `xlin\u212a:href`, becomes xlink:href in SVG and hides, or is hidden by, a real one.
- C74: a self-closing svg is not taken as closed: `<svg/>text</svg>after` loses "text" (also `<svg><svg/></svg>x</svg>y` loses x); `</svg>` inside
  a quoted attribute value after `>`, or in a comment, ends the drop, so the rest of the element comes out as content of the page.
- C75: the default engine keeps `href="https://x\y"` and `href="/ /x"`, which sanitizing the tree with the same policy drops or changes (the
  short URL check of C20; both results are safe in the sense of C12 and C14). The table would not do for policies with `meta` refresh rules; only
  the two default policies are compiled.
- C76: the default engine lacks the ruby rules of the full parser: `<ruby><p>a<rt>b` keeps b inside the paragraph. Outside the model: its start tags
  of allowed ordinary elements do not reconstruct formatting elements first (engine 3260-3284, 3543-3555), so `<p><b>x</p><span>y</span>` gives
  `<span><b>y</b></span>`, where the standard and the full parser give `<b><span>y</span></b>`.
- C77: the standard lets a frameset replace a body with `<span></span>`, `<section></section>` or a comment in it; the engine keeps the body and drops the frameset
  (C77_kept_refuted, C77_comment_refuted). With `<svg><foreignObject><br></foreignObject></svg>` it is the other way round: the engine replaces what the
  standard keeps (C77_lost_refuted).

## Testing the theorems

`tools/mutate.py` edits one definition of a model in a scratch copy, rebuilds what depends on it and records which
lemma or theorem fails first; `seeded/muts*.py` hold the edits and `seeded/LOG.jsonl` every attempt with its outcome.
Survivors were either equivalent edits or led to tightened theorems (field `theorems_tightened`).

## Building

`cd rocq && coq_makefile -f _CoqProject -o Makefile && make -j4` (about five minutes on four cores).
