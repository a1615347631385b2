{"id": "C01", "title": "Escaped text is inert markup that decodes back to itself", "statement": "For every text t, the serialized form of a text node (outside raw-text parents) contains no '<' or '>' and, read by an HTML5 tokenizer in the data (or RCDATA) state, yields exactly the characters of t and no tag, comment or end tag.", "quantifier": "every Unicode text (any length), every following output", "why_tests_cant": "Infinite set of strings, including ones that look like partial entities or tags; only induction covers all.", "anchors": ["src/justhtml/serializer/html.py:_escape_text", "src/justhtml/serializer/html.py:_escape_html_chars"]}
{"id": "C02", "title": "Escaped attribute values cannot leave their quotes and decode back to themselves", "statement": "For every value v and either quote character q, the escaped value contains no q, '<' or '>' and, read by an HTML5 tokenizer in the q-quoted attribute value state, yields exactly v and ends at the closing quote written after it. The same holds for JustHTML.escape_attr_value.", "quantifier": "every Unicode value, both quote characters", "why_tests_cant": "Infinite strings; interaction of escaping with character-reference decoding.", "anchors": ["src/justhtml/serializer/html.py:_escape_attr_value", "src/justhtml/parser/__init__.py:JustHTML.escape_attr_value"]}
{"id": "C03", "title": "A serialized start tag tokenizes to exactly that tag and its attributes", "statement": "For every name and attribute dict that the serializer accepts, the emitted start tag is read by an HTML5 tokenizer as one start tag with that (ASCII-lower-cased) name and exactly those attributes in order, regardless of quoting/minimisation options; names it cannot emit safely are rejected with ValueError.", "quantifier": "every tag name, every attribute dict, every value, all quoting options", "why_tests_cant": "Unbounded dicts and strings; adversarial names.", "anchors": ["src/justhtml/serializer/html.py:serialize_start_tag", "src/justhtml/serializer/html.py:_validate_serializable_tag_name", "src/justhtml/serializer/html.py:_validate_serializable_attr_name"]}
{"id": "C04", "title": "Comments cannot be closed early by their data", "statement": "For every comment data, the serialized comment is read by an HTML5 tokenizer as exactly one comment token and nothing else; following output is tokenized from the data state.", "quantifier": "every comment data string", "why_tests_cant": "Comment end conditions (-->, --!>, <!-->, <!--->) interact; only a proof over the state machine covers all data.", "anchors": ["src/justhtml/serializer/html.py:_serialize_comment_data"]}
{"id": "C05", "title": "Processing instructions cannot be closed early by their data", "statement": "For every processing-instruction data the output contains exactly one '>' – its final character – so an HTML5 tokenizer reads it as one bogus comment.", "quantifier": "every data string", "why_tests_cant": "Infinite strings.", "anchors": ["src/justhtml/serializer/html.py:_serialize_pi_data"]}
{"id": "C06", "title": "Doctype serialization stays one token", "statement": "For every doctype name, public id and system id, the serialized doctype contains no '>' before its last character and identifiers cannot close their quotes.", "quantifier": "every name/public/system string", "why_tests_cant": "Infinite strings.", "anchors": ["src/justhtml/serializer/html.py:_serialize_doctype"]}
{"id": "C07", "title": "Raw text elements cannot be closed early by their text", "statement": "For every text t and raw-text element (style, xmp, iframe, noembed, noframes), the serialized element is read by an HTML5 tokenizer as start tag, characters, one end tag – the end tag the serializer wrote – and nothing in t ends the element early.", "quantifier": "every text", "why_tests_cant": "Case folding, Unicode folding and end-tag boundary conditions over all strings.", "anchors": ["src/justhtml/core/rawtext.py:neutralize_rawtext_end_tag_sequences", "src/justhtml/serializer/html.py:_serialize_text_for_parent", "src/justhtml/core/text.py:ascii_lower"]}
{"id": "C08", "title": "Script elements cannot be closed early, and do not swallow what follows", "statement": "For every script text, the serialized script element is tokenized as start tag, characters, its own end tag and nothing of the following output is swallowed.", "quantifier": "every script text and following output", "why_tests_cant": "Script data (double) escaped states.", "anchors": ["src/justhtml/core/rawtext.py:neutralize_rawtext_end_tag_sequences", "src/justhtml/sanitizer/rawtext.py"]}
{"id": "C09", "title": "Compact serialization of a tree tokenizes to the tree", "statement": "For every DOM tree of ordinary HTML elements, text and comments whose names the serializer accepts, tokenizing to_html(pretty=False) yields exactly the pre-order start tag / text / comment / end tag events of the tree: no data can create, close or hide markup.", "quantifier": "every tree (any depth/width), every attribute and text content", "why_tests_cant": "Unbounded trees and strings.", "anchors": ["src/justhtml/serializer/html.py:_node_to_html_compact", "src/justhtml/serializer/html.py:to_html"]}
{"id": "C10", "title": "JS string escaping keeps the value inside the literal and decodes back", "statement": "For every value and either quote, escape_js_string's output contains no unescaped quote, no line terminator and no '<' or '>' and evaluates as a JS string literal body to exactly the value; an invalid quote is rejected.", "quantifier": "every string, both quotes", "why_tests_cant": "Infinite strings.", "anchors": ["src/justhtml/serializer/html.py:_escape_js_string", "src/justhtml/parser/__init__.py:JustHTML.escape_js_string"]}
{"id": "C11", "title": "URL percent-encoding is injective, confined to a safe alphabet and idempotence-free of delimiters", "statement": "For every encodable value, escape_url_value emits only unreserved characters, the kept separators and %XX triples, so quotes, angle brackets, spaces and backslashes never appear, and percent-decoding gives the UTF-8 bytes of the value back (values containing a literal % included); lone surrogates raise.", "quantifier": "every string", "why_tests_cant": "Infinite strings / full UTF-8 range.", "anchors": ["src/justhtml/serializer/html.py:_escape_url_value", "src/justhtml/parser/__init__.py:JustHTML.escape_url_value"]}
{"id": "C12", "title": "A cleaned URL never has a scheme outside the rule", "statement": "For every rule and value, if URL cleaning with handling 'allow' returns a URL then a browser parsing that URL sees either no scheme or a scheme in rule.allowed_schemes.", "quantifier": "every rule, every value, every url_filter result", "why_tests_cant": "Scheme confusion through control characters, whitespace, case, invisible Unicode: unbounded.", "anchors": ["src/justhtml/sanitizer/url/runtime.py:_sanitize_url_value_with_rule", "src/justhtml/parser/__init__.py:JustHTML.clean_url_value"]}
{"id": "C13", "title": "javascript:, data: and vbscript: never survive the default URL rules", "statement": "With the default policy, for every attribute value of a[href] and img[src] the sanitized value, if any, is not seen by a browser as a javascript:, vbscript:, data: or blob: URL.", "quantifier": "every attribute value", "why_tests_cant": "Obfuscations are unbounded.", "anchors": ["src/justhtml/sanitizer/policy_defaults.py", "src/justhtml/sanitizer/url/runtime.py:_sanitize_url_value_with_rule", "src/justhtml/parser/engine.py:_sanitize_simple_url_fast"]}
{"id": "C14", "title": "Protocol-relative URLs are only emitted with an explicit allowed scheme", "statement": "If cleaning returns a URL for a value a browser would treat as protocol-relative, the result starts with the rule's resolve scheme, which is in allowed_schemes; with no resolve scheme the value is dropped. Output never starts with '//' or with a backslash variant of it.", "quantifier": "every rule and value", "why_tests_cant": "Infinite strings.", "anchors": ["src/justhtml/sanitizer/url/runtime.py:_sanitize_url_value_with_rule"]}
{"id": "C15", "title": "Host allowlists hold", "statement": "If a rule has allowed_hosts and cleaning (handling allow) returns a URL with an authority, then the host a browser would contact is in allowed_hosts: no userinfo, port, percent-escape, non-ASCII or numeric-IPv4 trick yields another host.", "quantifier": "every rule and value", "why_tests_cant": "Parser differentials between urlsplit and WHATWG URL over all strings.", "anchors": ["src/justhtml/sanitizer/url/runtime.py:_url_host_matches_allowed_hosts", "src/justhtml/sanitizer/url/runtime.py:_raw_authority_host", "src/justhtml/sanitizer/url/runtime.py:_uses_canonical_ascii_url_host"]}
{"id": "C16", "title": "Handling 'strip' and 'proxy' are total", "statement": "With handling 'strip' no URL is ever returned; with handling 'proxy' every returned URL is the proxy URL plus the percent-encoded original in one query parameter, or nothing when no proxy is configured.", "quantifier": "every rule, value and proxy", "why_tests_cant": "All branches for all strings.", "anchors": ["src/justhtml/sanitizer/url/runtime.py:_sanitize_url_value_with_rule", "src/justhtml/sanitizer/url/runtime.py:_proxy_url_value"]}
{"id": "C17", "title": "allow_relative=False and allow_fragment=False are honoured", "statement": "With allow_relative=False every returned URL (handling allow) is seen by a browser as absolute with an allowed scheme or as a fragment; with allow_fragment=False no returned URL starts with '#'.", "quantifier": "every rule and value", "why_tests_cant": "Infinite strings.", "anchors": ["src/justhtml/sanitizer/url/runtime.py:_sanitize_url_value_with_rule"]}
{"id": "C18", "title": "Every candidate of a srcset / URL list is validated", "statement": "If srcset, ping, attributionsrc, archive or profile cleaning returns a value, every candidate a browser would extract from that value is a URL the rule accepts; one bad candidate drops the whole attribute.", "quantifier": "every attribute value, any number of candidates", "why_tests_cant": "Unbounded lists; separator differentials.", "anchors": ["src/justhtml/sanitizer/url/runtime.py:_sanitize_srcset_value", "src/justhtml/sanitizer/url/runtime.py:_sanitize_url_tokens"]}
{"id": "C19", "title": "meta refresh targets are validated", "statement": "If meta refresh cleaning returns a value, the URL a browser extracts from it is one the rule accepts.", "quantifier": "every content value", "why_tests_cant": "Infinite strings; refresh micro-syntax.", "anchors": ["src/justhtml/sanitizer/url/runtime.py:_extract_meta_refresh_url", "src/justhtml/sanitizer/url/runtime.py:_sanitize_meta_refresh_sink_value"]}
{"id": "C20", "title": "The parse-time URL fast path agrees with the policy", "statement": "Whenever the fast URL check used by the default safe parser returns a value, the general URL cleaner with the same rule returns the same value, and whenever it drops a value the general cleaner drops it.", "quantifier": "every value and every rule eligible for the fast path", "why_tests_cant": "Two implementations must agree on all strings.", "anchors": ["src/justhtml/parser/engine.py:_sanitize_simple_url_fast", "src/justhtml/sanitizer/url/runtime.py:_sanitize_url_value_with_rule"]}
{"id": "C21", "title": "Inline CSS keeps only allowlisted properties with harmless values", "statement": "For every style value, the sanitized style consists only of declarations whose property is in the allowlist and whose value has no url()/image-set/expression/@import/comment/escape constructs (unless a url() is permitted by a URL rule and every URL in it was cleaned by that rule).", "quantifier": "every style string and CSS allowlist", "why_tests_cant": "Infinite strings; CSS obfuscation.", "anchors": ["src/justhtml/sanitizer/css.py:_sanitize_inline_style"]}
{"id": "C22", "title": "Sanitized trees contain only allowed elements and attributes", "statement": "For every DOM tree and policy, after sanitization every remaining element has a tag in allowed_tags and every attribute is allowed for its tag (or produced by the policy itself); no event handler attribute or foreign-namespace element remains.", "quantifier": "every tree, every policy", "why_tests_cant": "Unbounded trees; unwrapping can hoist nodes past earlier checks.", "anchors": ["src/justhtml/transforms/runtime.py:apply_compiled_transforms", "src/justhtml/sanitizer/dom.py:sanitize_dom", "src/justhtml/transforms/compile.py"]}
{"id": "C23", "title": "Sanitization removes comments, doctypes and dropped content as configured", "statement": "For every tree, with drop_comments no comment or processing instruction remains, with drop_doctype no doctype remains, and nothing inside a drop_content element survives.", "quantifier": "every tree, every policy", "why_tests_cant": "Unbounded trees.", "anchors": ["src/justhtml/transforms/runtime.py:apply_compiled_transforms", "src/justhtml/sanitizer/dom.py:sanitize_dom"]}
{"id": "C24", "title": "Sanitization is idempotent and never invents text", "statement": "Sanitizing an already sanitized tree changes nothing; and the text of the sanitized tree (strip/unwrap mode) is a subsequence of the text of the input.", "quantifier": "every tree, every policy", "why_tests_cant": "Unbounded trees.", "anchors": ["src/justhtml/sanitizer/dom.py:sanitize_dom"]}
{"id": "C25", "title": "Already-clean trees pass through unchanged", "statement": "A tree whose elements, attributes, URLs and text already satisfy the policy is returned unchanged by sanitization.", "quantifier": "every conforming tree", "why_tests_cant": "Unbounded trees.", "anchors": ["src/justhtml/sanitizer/dom.py:sanitize_dom", "src/justhtml/transforms/runtime.py:apply_compiled_transforms"]}
{"id": "C26", "title": "unsafe_handling=raise raises iff something unsafe was found; collect reports each finding", "statement": "For every tree and policy, in 'raise' mode sanitization raises exactly when in 'strip' mode it would report at least one finding, and in 'collect' mode the same tree results as in 'strip' mode with one error per finding in document order.", "quantifier": "every tree, every policy", "why_tests_cant": "Unbounded trees and histories of a reused policy object.", "anchors": ["src/justhtml/sanitizer/policy.py:UnsafeHandler", "src/justhtml/sanitizer/policy.py:SanitizationPolicy.handle_unsafe"]}
{"id": "C27", "title": "Character references decode as HTML specifies and decoding never fails", "statement": "For every text, decoding character references returns the text the HTML standard's character-reference states produce (in text and in attributes) and never raises.", "quantifier": "every string", "why_tests_cant": "2231 names with prefix ambiguity, all numeric references, all Unicode neighbours.", "anchors": ["src/justhtml/core/entities.py:decode_entities_in_text", "src/justhtml/core/entities.py:decode_numeric_entity"]}
{"id": "C28", "title": "DOM mutations keep the tree a tree", "statement": "After any sequence of append_child / insert_before / replace_child / remove_child / clone / fragment insertion calls, parent and child links agree, no node occurs twice, there are no cycles, and failing calls leave the tree unchanged.", "quantifier": "every finite sequence of API calls on any nodes", "why_tests_cant": "Unbounded histories, including self-insertion and ancestor insertion.", "anchors": ["src/justhtml/dom/__init__.py:Node.append_child", "src/justhtml/dom/__init__.py:Node.insert_before", "src/justhtml/dom/__init__.py:Node.replace_child", "src/justhtml/dom/__init__.py:Node.remove_child"]}
{"id": "C29", "title": "Deep cloning yields an equal, disjoint tree", "statement": "clone_node(deep=True) returns a tree with the same names, attributes, data and structure that shares no node with the original, and leaves the original unchanged.", "quantifier": "every tree", "why_tests_cant": "Unbounded trees.", "anchors": ["src/justhtml/dom/__init__.py:Node.clone_node"]}
{"id": "C30", "title": "Selector matching is sound for CSS", "statement": "Whenever matches()/query() reports that an element matches a selector, the element matches it under CSS semantics for the supported selector subset.", "quantifier": "every tree, element and selector", "why_tests_cant": "Unbounded trees/selectors, memoised matching.", "anchors": ["src/justhtml/selector/core.py:SelectorMatcher._matches_complex"]}
{"id": "C31", "title": "Selector matching is complete for CSS", "statement": "Whenever an element matches a supported selector under CSS semantics, matches()/query() reports it.", "quantifier": "every tree, element and selector", "why_tests_cant": "Needs existential ancestor choice over all trees.", "anchors": ["src/justhtml/selector/core.py:SelectorMatcher._matches_complex", "src/justhtml/selector/core.py:SelectorMatcher._closest_matching_ancestor"]}
{"id": "C32", "title": ":nth-child(An+B) arithmetic is right", "statement": "For every A, B and index, the nth test is true exactly when index = A*n+B for some integer n >= 0.", "quantifier": "every integer A, B and positive index", "why_tests_cant": "Unbounded integers, negative modulus.", "anchors": ["src/justhtml/selector/core.py:SelectorMatcher._matches_nth"]}
{"id": "C33", "title": "query returns matches in document order without duplicates and the tag fast path agrees with the general path", "statement": "For every tree and selector, query returns exactly the matching descendants (root excluded), each once, in document order; for simple tag selectors the fast path returns the same list as the general matcher.", "quantifier": "every tree and selector", "why_tests_cant": "Unbounded trees.", "anchors": ["src/justhtml/selector/core.py:query", "src/justhtml/selector/core.py:_query_descendants", "src/justhtml/selector/core.py:_query_descendants_tag"]}
{"id": "C34", "title": "Byte input is never decoded as UTF-7 and decoding always picks a supported encoding", "statement": "For every byte string and transport label the chosen encoding is one of the seven supported names (never utf-7), a BOM wins over everything, then the transport label, then a meta declaration, else windows-1252, and a meta declaration never selects UTF-16.", "quantifier": "every byte string and label", "why_tests_cant": "Infinite byte strings through a prescan loop.", "anchors": ["src/justhtml/parser/encoding.py:sniff_html_encoding", "src/justhtml/parser/encoding.py:_prescan_for_meta_charset", "src/justhtml/parser/encoding.py:decode_html"]}
{"id": "C35", "title": "The encoding prescan terminates and looks at a bounded prefix", "statement": "For every input the meta prescan terminates; bytes after the scan cap cannot change the chosen encoding.", "quantifier": "every byte string", "why_tests_cant": "Termination over all inputs.", "anchors": ["src/justhtml/parser/encoding.py:_prescan_for_meta_charset"]}
{"id": "C36", "title": "Linkify reports exact, ordered, non-overlapping spans and only safe schemes", "statement": "For every text, each reported link's text equals text[start:end], links are ordered and do not overlap, each href starts with http://, https://, ftp://, mailto: or // (case-insensitively), and finding links never raises.", "quantifier": "every text and every configuration", "why_tests_cant": "Infinite strings.", "anchors": ["src/justhtml/transforms/linkify_core.py:find_links_with_config"]}
{"id": "C37", "title": "Linkifying text preserves the text", "statement": "Splitting a text node at the reported links and concatenating the pieces gives back the original text.", "quantifier": "every text", "why_tests_cant": "Infinite strings.", "anchors": ["src/justhtml/transforms/runtime.py", "src/justhtml/transforms/linkify_core.py:find_links_with_config"]}
{"id": "C38", "title": "The open-element stack index answers like a plain scan", "statement": "For every history of push/pop/insert/remove/replace/truncate operations, every lookup on the indexed stack returns what a linear scan of the stack returns, independent of when the index was built.", "quantifier": "every operation history of any length", "why_tests_cant": "Unbounded histories crossing the indexing threshold.", "anchors": ["src/justhtml/parser/engine.py:_CountingStack"]}
{"id": "C39", "title": "Comments end where HTML says they end", "statement": "For every input, the parser's comment scanner ends a comment at exactly the position where the HTML tokenizer's comment states do, with the same data.", "quantifier": "every string", "why_tests_cant": "State machine vs. find loop on all strings.", "anchors": ["src/justhtml/parser/engine.py:ParseEngine._find_comment_end"]}
{"id": "C40", "title": "Attributes are parsed as the HTML tokenizer parses them", "statement": "For every tag source, the raw parser's attribute list (names, values, first-wins duplicates, self-closing flag, end position) equals the HTML tokenizer's.", "quantifier": "every string", "why_tests_cant": "State machine vs. scanner on all strings.", "anchors": ["src/justhtml/parser/engine.py:ParseEngine._parse_all_attrs"]}
{"id": "C41", "title": "The fused safe-mode attribute parser agrees with parse-then-sanitize", "statement": "For every tag source, the default safe parser's attribute dict equals parsing all attributes and then applying the policy's attribute rules.", "quantifier": "every tag source and default tag action", "why_tests_cant": "Two implementations over all strings.", "anchors": ["src/justhtml/parser/engine.py:ParseEngine._parse_attrs_for_action", "src/justhtml/parser/engine.py:ParseEngine._sanitize_parsed_attrs"]}
{"id": "C42", "title": "Raw text and script end tags are found where HTML says", "statement": "For every input and raw-text element name, the scanner finds the end tag at exactly the position the HTML tokenizer's RAWTEXT / script-data states leave the element.", "quantifier": "every string", "why_tests_cant": "State machine vs. search loops on all strings.", "anchors": ["src/justhtml/parser/scanner.py:find_rawtext_end_tag", "src/justhtml/parser/scanner.py:find_script_end_tag"]}
{"id": "C43", "title": "The streaming API loses and invents no text and always terminates", "statement": "For every input the stream scanner terminates, its events cover the input in order, and the concatenated text of the events is the text content of the input.", "quantifier": "every string", "why_tests_cant": "Termination and conservation over all inputs.", "anchors": ["src/justhtml/parser/stream.py:stream"]}
{"id": "C44", "title": "Quirks mode is decided as HTML specifies", "statement": "For every doctype the reported quirks mode equals the HTML standard's decision table.", "quantifier": "every doctype name/public/system id", "why_tests_cant": "Infinite strings with prefix tables.", "anchors": ["src/justhtml/core/doctype.py:doctype_error_and_quirks"]}
{"id": "C45", "title": "Markdown text cannot become HTML or leave its code span", "statement": "For every text, the Markdown rendering of a text node contains no unescaped '<' or '&', and a code span's fence is longer than any backtick run inside it so the span ends only at its own closing fence.", "quantifier": "every text", "why_tests_cant": "Infinite strings.", "anchors": ["src/justhtml/serializer/markdown.py:_markdown_escape_text", "src/justhtml/serializer/markdown.py:_markdown_code_span", "src/justhtml/serializer/markdown.py:_markdown_backtick_fence"]}
{"id": "C46", "title": "Markdown link destinations stay inside their delimiters", "statement": "For every URL, the Markdown link destination contains no whitespace and either no parentheses/angle brackets or is one <...> group, so it cannot terminate the link early.", "quantifier": "every URL string", "why_tests_cant": "Infinite strings.", "anchors": ["src/justhtml/serializer/markdown.py:_markdown_link_destination"]}
{"id": "C47", "title": "Invisible Unicode is fully removed and nothing else is", "statement": "With strip_invisible_unicode every text and attribute value of the result contains none of the listed invisible code points and is the input with exactly those code points deleted.", "quantifier": "every string", "why_tests_cant": "Full Unicode range.", "anchors": ["src/justhtml/sanitizer/url/runtime.py:_strip_invisible_unicode"]}
{"id": "C48", "title": "Error lists are bounded, sorted and stable", "statement": "For every list of parse errors and every max_errors, the errors exposed number at most max_errors, are sorted by (line, column) with unknown positions last, ties keep emission order, and no error is lost or duplicated by sorting.", "quantifier": "every error history", "why_tests_cant": "Unbounded histories.", "anchors": ["src/justhtml/parser/__init__.py:JustHTML._sorted_errors", "src/justhtml/parser/__init__.py:_BoundedErrorList"]}
{"id": "C49", "title": "Attribute glob patterns match as documented", "statement": "For every pattern and attribute name, DropAttrs/AllowlistAttrs-style patterns match exactly when '*' and '?' wildcards can be expanded to the name.", "quantifier": "every pattern and name", "why_tests_cant": "Backtracking over all strings.", "anchors": ["src/justhtml/transforms/runtime.py:_glob_match"]}
{"id": "C50", "title": "Whitespace collapsing is idempotent and only touches whitespace", "statement": "For every text, collapsing whitespace twice equals once, removes no non-whitespace character, leaves no two adjacent HTML spaces, and keeps order.", "quantifier": "every text", "why_tests_cant": "Infinite strings.", "anchors": ["src/justhtml/transforms/runtime.py:_collapse_html_space_characters", "src/justhtml/serializer/html.py:_collapse_html_whitespace"]}
{"id": "C51", "title": "ASCII case folding for marker searches preserves offsets", "statement": "For every text, the folded copy used for marker searches has the same length, changes no character into or out of ASCII other than A-Z to a-z, so offsets found in it are valid in the original.", "quantifier": "every Unicode text", "why_tests_cant": "Full Unicode range, length-changing lowercase mappings.", "anchors": ["src/justhtml/core/text.py:ascii_lower"]}
{"id": "C52", "title": "Line/column positions are exact", "statement": "For every input and offset, the reported (line, column) is one plus the number of newlines before the offset and one plus the distance to the last of them; the mapping is injective and monotone.", "quantifier": "every input and offset", "why_tests_cant": "Bisect over all inputs.", "anchors": ["src/justhtml/parser/engine.py:ParseEngine._line_col_at_pos"]}
{"id": "C53", "title": "Noah's Ark and formatting-list bookkeeping", "statement": "For every history of formatting start tags, end tags and markers, at most three live entries with equal name and attributes exist after the last marker, and the index used to find duplicates agrees with a scan of the list.", "quantifier": "every history", "why_tests_cant": "Unbounded histories.", "anchors": ["src/justhtml/parser/engine.py:ParseEngine._find_active_formatting_duplicate", "src/justhtml/parser/engine.py:_FormattingSegment"]}
{"id": "C54", "title": "Pretty-printing changes white space only", "statement": "For every tree HTML syntax can express, every indent and indent size, the output of to_html(pretty=True) - the default - is read by an HTML5 tokenizer as exactly the same tags, attributes, comments and doctypes as the compact output, and as the same characters except for white space outside code/pre/script/style/textarea; those elements are written byte for byte as in the compact output; it raises exactly when the compact serializer raises.", "quantifier": "every tree, depth, indent and indent size", "why_tests_cant": "A dozen layout strategies chosen by the shape of the children, combined recursively; unbounded trees.", "anchors": ["src/justhtml/serializer/html.py:_node_to_html", "src/justhtml/serializer/html.py:_should_pretty_indent_children", "src/justhtml/serializer/html.py:_normalize_formatting_whitespace", "src/justhtml/serializer/html.py:_collapse_html_whitespace"]}
{"id": "C55", "title": "Pretty-printing keeps the words of the text", "statement": "For every tree, pretty-printing neither joins two words of the text nor splits one, and drops no character that HTML does not treat as white space.", "quantifier": "every tree", "why_tests_cant": "Needs every combination of inline elements, text and layout.", "anchors": ["src/justhtml/serializer/html.py:_node_to_html", "src/justhtml/serializer/html.py:_normalize_formatting_whitespace"]}
{"id": "C56", "title": "Text extraction is complete and ordered", "statement": "For every tree, to_text joins exactly the (stripped, non-empty) data of its text nodes in document order, template contents included; with separator_blocks_only the separator stands exactly between the non-empty runs of text delimited by block elements and br; with separator '' and strip=False nothing is lost; the text :contains() searches is to_text(' '), and the characters an HTML tokenizer reads from to_html's output are the text.", "quantifier": "every tree, separator and flag combination", "why_tests_cant": "Iterative stack walks with enter/exit tasks over unbounded trees.", "anchors": ["src/justhtml/dom/__init__.py:_to_text_collect", "src/justhtml/dom/__init__.py:_to_text_collect_block_chunks", "src/justhtml/dom/__init__.py:Node.to_text", "src/justhtml/selector/core.py:SelectorMatcher._text_content"]}
{"id": "C57", "title": "Transforms do what they say, batched or not", "statement": "For every tree, selectors and callbacks: a pipeline terminates; Drop removes exactly the matching elements, Empty their content, Unwrap and Decide(UNWRAP) replace them by their content, SetAttrs and EditAttrs change only the attributes they name or return, DropComments/DropDoctype remove exactly those nodes, and everything else stays as it was, in order; running several transforms in one walk gives the same tree as running them one after another.", "quantifier": "every tree, pipeline, selector and callback", "why_tests_cant": "Iterative stack walks that rewrite the child list under the cursor, over unbounded trees and pipelines.", "anchors": ["src/justhtml/transforms/runtime.py:apply_compiled_transforms", "src/justhtml/transforms/compile.py:_append_compiled_transform", "docs/transforms.md"]}
{"id": "C58", "title": "CollapseWhitespace changes white space only and keeps the words", "statement": "For every tree and every skip_tags, trim_blocks and block_tags: CollapseWhitespace changes nothing but the HTML white space of text outside the skipped elements, leaves only single spaces there, keeps the words of the shown text - paragraph by paragraph, across inline elements, comments and hidden elements - and trims the start (and end) of block containers; running it again changes nothing.", "quantifier": "every tree and option combination", "why_tests_cant": "The decision about one text depends on siblings on both sides, some already rewritten.", "anchors": ["src/justhtml/transforms/runtime.py:apply_compiled_transforms", "src/justhtml/transforms/runtime.py:_nearest_rendered_sibling", "src/justhtml/transforms/runtime.py:_trim_block_edge_text"]}
{"id": "C59", "title": "PruneEmpty removes exactly the empty matching elements", "statement": "For every tree and selectors: PruneEmpty removes exactly the matching non-void elements that have, after pruning inside them, no element children and no (non-blank) text; none is left, a second run changes nothing, the root, void elements, comments in kept elements and all (non-blank) text stay in order.", "quantifier": "every tree and selector", "why_tests_cant": "Removing one element can make its parent empty; unbounded cascades.", "anchors": ["src/justhtml/transforms/runtime.py:apply_compiled_transforms", "docs/transforms.md"]}
{"id": "C60", "title": "The finishing passes of the default sanitizer take out exactly what was recorded", "statement": "For every tree and every set of recorded nodes: the passes that end a parse with a built-in default policy raise nothing, keep a well-formed tree, remove exactly the nodes recorded to be dropped with all they contain, replace the nodes recorded to be unwrapped by their children, keep everything else in order and nesting; the result depends on the set of recorded nodes only - not on their number (the batch threshold), order or duplicates - so if every node is allowed or recorded, only allowed nodes are left.", "quantifier": "every tree, every set of recorded nodes", "why_tests_cant": "Two implementations chosen by the number of nodes, over all nestings of recorded nodes.", "anchors": ["src/justhtml/parser/engine.py:ParseEngine._unwrap_recorded_nodes", "src/justhtml/parser/engine.py:ParseEngine._drop_recorded_nodes", "src/justhtml/parser/engine.py:ParseEngine._expanded_children", "src/justhtml/parser/engine.py:ParseEngine._finish_fragment_context"]}
{"id": "C61", "title": "selectedcontent mirrors the chosen option, at bounded cost, and stays sanitized", "statement": "For every document: filling selectedcontent elements ends, copies at most as many nodes as the input has characters and leaves all original nodes as they were; every selectedcontent of a select outside the chosen option shows the content of the chosen option (last with selected, first if multiple, else first enabled, none in a datalist) and nothing else changes; whatever the default policy has to take out of the document is still taken out of the copies.", "quantifier": "every document, any nesting", "why_tests_cant": "Copies of copies: unbounded nesting of select elements.", "anchors": ["src/justhtml/parser/engine.py:ParseEngine._project_selectedcontent", "src/justhtml/parser/engine.py:ParseEngine._project_select_selectedcontent", "src/justhtml/parser/engine.py:ParseEngine._record_projected_sanitization"]}
{"id": "C62", "title": "A misnested formatting end tag has the effect of the HTML standard", "statement": "For every stack of open elements and list of active formatting elements: an end tag such as </b> or </a> creates and moves the same elements in the same order, and leaves the same open elements and the same active formatting elements, as the adoption agency algorithm of the HTML standard (with its fall back to any other end tag); no exception is raised.", "quantifier": "every stack, every list of formatting elements with retired entries, every end tag", "why_tests_cant": "The eight by three rounds over arbitrary stacks, with bookmark arithmetic on a lazily compacted list.", "anchors": ["src/justhtml/parser/engine.py:ParseEngine._adoption_agency", "src/justhtml/parser/engine.py:ParseEngine._retire_active_formatting_entry", "src/justhtml/parser/engine.py:ParseEngine._has_node_in_scope", "src/justhtml/core/constants.py:SPECIAL_ELEMENTS"]}
{"id": "C63", "title": "element() builds exactly the element its arguments describe, and what is built can be serialized", "statement": "For every argument: element(name, attrs, *children, namespace=...) returns if and only if name is written tag[attr][attr=value][attr=\"value\"]... with a tag and attribute names that HTML can carry and no attribute twice, the namespace is html, svg or math(ml), the mapping adds only further such names, and the children are strings, nodes, None, False or nested iterables of these; the element then has the tag, the shorthand attributes followed by the mapping's, and the children in reading order (in the contents of an html template); everything else raises. No tree built this way makes to_html raise, and the start tag written reads back as that tag with those attributes.", "quantifier": "every name string, mapping, nesting of children, namespace", "why_tests_cant": "A hand-written parser over arbitrary strings and an explicit stack over arbitrary nesting.", "anchors": ["src/justhtml/dom/builder.py:element", "src/justhtml/dom/builder.py:_parse_element_name", "src/justhtml/dom/builder.py:_flatten_children", "src/justhtml/dom/builder.py:_normalize_attrs"]}
{"id": "C64", "title": "Formatting reopened lazily is the formatting of the standard", "statement": "For every history of start tags, end tags, text, table cells, templates and misnested formatting: reopening the active formatting elements only when a flag says that one may be closed builds the same elements for the same tokens in the same places as the HTML standard, which checks before every text and most start tags; reopening never raises.", "quantifier": "every history of parsing events, any number of formatting elements and markers", "why_tests_cant": "A flag set and cleared at some fifty places; a stale value shows only after a particular history.", "anchors": ["src/justhtml/parser/engine.py:ParseEngine._reconstruct_active_formatting", "src/justhtml/parser/engine.py:ParseEngine._refresh_active_formatting_dirty", "src/justhtml/parser/engine.py:ParseEngine._mark_active_formatting_dirty", "src/justhtml/parser/engine.py:ParseEngine._clear_active_formatting_to_marker", "src/justhtml/parser/engine.py:ParseEngine._close_open_template"]}
{"id": "C65", "title": "Everything the default sanitizer's parser puts into the tree is sanitized or recorded", "statement": "For every input to a parse with a built-in default policy: every element the parser creates - from a start tag, implied, reopened, cloned for misnested formatting, inside or outside foreign content - is an HTML element of an allowed tag whose attributes are all allowed there with values that passed the URL rules, or it is recorded to be dropped or unwrapped; so after the finishing passes only sanitized elements are left.", "quantifier": "every history of start tags, end tags, text and implied elements", "why_tests_cant": "Which of the four insertion paths an element takes depends on the whole stack and list of formatting elements.", "anchors": ["src/justhtml/parser/engine.py:ParseEngine._insert_sanitized_element", "src/justhtml/parser/engine.py:ParseEngine._insert_compiled_safe_element", "src/justhtml/parser/engine.py:ParseEngine._parse_formatting_start", "src/justhtml/parser/engine.py:ParseEngine._clone_formatting_entry", "src/justhtml/parser/engine.py:ParseEngine._namespace_for_raw_start"]}
{"id": "C66", "title": "In the body, ordinary start and end tags open and close what the HTML standard says", "statement": "For every history of ordinary tags in the body of a document (blocks, paragraphs, headings, lists, definitions, buttons, ruby, void and unknown elements, SVG and MathML with their integration points), with formatting elements opened, closed and moved in between: each tag makes the same element, in the same namespace and place, and leaves the same elements open as the tree construction rules of the HTML standard; so a paragraph never holds a block, and HTML never ends up in foreign content except at integration points.", "quantifier": "every history of tags, any depth of nesting", "why_tests_cant": "Each tag searches the whole stack of open elements, whose shape is the result of all the tags before.", "anchors": ["src/justhtml/parser/engine.py:ParseEngine._repair_stack_for_start", "src/justhtml/parser/engine.py:ParseEngine._parse_end_tag", "src/justhtml/parser/engine.py:ParseEngine._find_open_index_before_boundary", "src/justhtml/parser/engine.py:ParseEngine._end_tag_stays_in_foreign_context", "src/justhtml/parser/engine.py:ParseEngine._namespace_for_raw_start"]}
{"id": "C67", "title": "The tags of tables open and close what the HTML standard says", "statement": "For every history of the tags of tables (table, caption, colgroup, col, tbody, thead, tfoot, tr, td, th), with other elements opened and closed in between: each tag makes the same elements in the same places, and leaves the same open elements and the same active formatting elements, as the insertion modes for tables of the HTML standard, although the parser keeps no insertion mode; cells are always in rows, rows in sections, sections, captions and column groups in tables, columns in column groups.", "quantifier": "every history of tags, any nesting of tables", "why_tests_cant": "The parser reads the insertion mode off the stack of open elements; the two can diverge only after particular histories.", "anchors": ["src/justhtml/parser/engine.py:ParseEngine._repair_table_for_start", "src/justhtml/parser/engine.py:ParseEngine._parse_start_tag", "src/justhtml/parser/engine.py:ParseEngine._parse_end_tag", "src/justhtml/parser/engine.py:ParseEngine._close_table_cell", "src/justhtml/parser/engine.py:ParseEngine._close_stray_table_content_to_section", "src/justhtml/parser/engine.py:ParseEngine._find_open_table_scoped_end_index", "src/justhtml/parser/engine.py:ParseEngine._clear_active_formatting_to_marker"]}
{"id": "C68", "title": "Parsing the same tables twice gives the same tree, whatever the hash seed", "statement": "For every document: what the tags of tables open and close is the same in every run of the program; it does not depend on the order in which Python happens to go through a set of strings, which changes with the hash seed of the process.", "quantifier": "every history of tags, every order of the set", "why_tests_cant": "One test process sees one hash seed, so one order.", "anchors": ["src/justhtml/parser/engine.py:_TABLE_SECTION_TAGS", "src/justhtml/parser/engine.py:ParseEngine._repair_table_for_start", "src/justhtml/parser/engine.py:ParseEngine._close_until_before_boundary"]}
{"id": "C69", "title": "What a table may not hold is put in front of it, as the HTML standard says, and nothing is lost", "statement": "For every history of text, start tags, comments and elements closed and reopened while tables are open: text that is not white space, and elements that a table may not hold, are put in front of the table (or at the end of the contents of the template that was opened inside it), in order and merged with the text already there, and white space stays in the table, exactly as the HTML standard's foster parenting and table text rules say; whatever the history, all text of the input is in the tree and no node is in two places.", "quantifier": "every history of tokens, every way the text is cut into pieces", "why_tests_cant": "The parser puts white space into the table at once and takes it back when other text follows; the outcome depends on the cuts, the stack and the tree.", "anchors": ["src/justhtml/parser/engine.py:ParseEngine._foster_parent_for", "src/justhtml/parser/engine.py:ParseEngine._append_text", "src/justhtml/parser/engine.py:ParseEngine._insert_at", "src/justhtml/parser/engine.py:ParseEngine._insert_raw_element", "src/justhtml/core/constants.py:TABLE_ALLOWED_CHILDREN"]}
{"id": "C70", "title": "Text and comments are cleaned as the standards say", "statement": "For every input: in text, raw text and comments every CR LF pair and every other CR becomes one LF; NUL is deleted or replaced by U+FFFD; references are decoded after that and invisible code points removed after decoding; surrogate pairs in comments are joined and nothing else changes. With xml_coercion=True every form feed in text becomes a space and every Unicode noncharacter U+FFFD, nothing else changes, doing it twice is doing it once, and the text and the comments of the tree are legal in XML.", "quantifier": "every text, every comment, every combination of options", "why_tests_cant": "Cleaning is a chain of replacements with shortcuts for ASCII text and flags for the whole input; the order and every overlap of matches matter.", "anchors": ["src/justhtml/parser/engine.py:ParseEngine._clean_text", "src/justhtml/parser/engine.py:ParseEngine._append_raw_literal_text", "src/justhtml/parser/engine.py:ParseEngine._append_comment", "src/justhtml/parser/engine.py:_coerce_text_for_xml", "src/justhtml/parser/engine.py:_coerce_comment_for_xml", "src/justhtml/parser/engine.py:_normalize_surrogate_pairs"]}
{"id": "C71", "title": "Processing instructions are read exactly and survive a round trip", "statement": "For every input: what stands between <? and the next > is a processing instruction exactly if it is a target (a letter or underscore, then letters, digits, hyphens and underscores, not beginning with xml), white space, data, and an optional question mark; its data is the target, a space and the data. The data of every parsed processing instruction, serialized and parsed again, is the same.", "quantifier": "every content, every flag of the later parse", "why_tests_cant": "Whether white space, question marks and line endings add up or vanish on the way round depends on every combination at both ends of the data.", "anchors": ["src/justhtml/parser/engine.py:ParseEngine._processing_instruction_data", "src/justhtml/parser/engine.py:ParseEngine._append_processing_instruction", "src/justhtml/serializer/html.py:_serialize_pi_data"]}
{"id": "C72", "title": "JustHTML runs exactly the transforms, stages and sanitizing that were asked for", "statement": "For every list of transforms and stages, policy and flags: after parsing, every enabled transform outside disabled stages is carried out once, from left to right, with its own policy, else the one of the constructor, else the default of the root; each top-level stage (and each run of transforms between stages) begins with its hook, numbered in order; nested stages are flattened and disabled stages are as if absent. With sanitize=True the tree is sanitized, by a last Sanitize if the list has none; nothing that follows a Sanitize shares its walk. The source text of tags is kept whenever something will escape them, selector limits are those of the last enabled Sanitize, TypeError is raised exactly for an object that is no transform, and the fused engine is used only where it stands for that one default Sanitize.", "quantifier": "every transform list with nested stages and disabled parts, every policy, every combination of sanitize and fragment", "why_tests_cant": "Flattening, default binding, compilation, chaining of functions and batching in walks are five rewritings of the list in sequence; a combination of stage, flag and neighbour that tests do not have can drop, reorder or merge steps.", "anchors": ["src/justhtml/parser/__init__.py:JustHTML.__init__", "src/justhtml/parser/__init__.py:JustHTML._apply_constructor_transforms", "src/justhtml/transforms/compile.py:compile_transforms", "src/justhtml/transforms/compile.py:_transform_parse_requirements", "src/justhtml/transforms/compile.py:_normalize_transform_policies", "src/justhtml/transforms/compile.py:_split_into_top_level_stages", "src/justhtml/transforms/compile.py:_append_compiled_transform", "src/justhtml/transforms/runtime.py:apply_compiled_transforms"]}
{"id": "C73", "title": "SVG and MathML names are written in the standard's mixed case and survive a round trip", "statement": "For every attribute list the parser reads: an element put into the SVG or MathML namespace gets the mixed-case name the standard prescribes, each of its attributes keeps value and place and gets the standard's name for that namespace, no two attributes become one, and elements of other namespaces are unchanged. Names that are written out and read again are the same.", "quantifier": "every namespace, element name and list of attribute names", "why_tests_cant": "There are some hundred names in four tables, and every other name must stay as it is, including names with letters whose lower case is ASCII.", "anchors": ["src/justhtml/parser/engine.py:ParseEngine._prepare_raw_element", "src/justhtml/parser/engine.py:ParseEngine._prepare_foreign_attrs", "src/justhtml/core/constants.py:SVG_TAG_NAME_ADJUSTMENTS", "src/justhtml/core/constants.py:SVG_ATTRIBUTE_ADJUSTMENTS", "src/justhtml/core/constants.py:MATHML_ATTRIBUTE_ADJUSTMENTS", "src/justhtml/core/constants.py:FOREIGN_ATTRIBUTE_ADJUSTMENTS"]}
{"id": "C74", "title": "A dropped svg or math element takes exactly its own content with it", "statement": "For every svg or math element that the default policy drops, whatever its content and depth: what is dropped is the content and the end tag, nothing before and nothing after; dropping stops only after an end tag with the element's name (or in it, at the end of the input); everything that is left is dropped only for an unclosed CDATA section or a plaintext tag; an element that is never closed drops nothing by scanning; the scan always ends.", "quantifier": "every content of an svg or math element, to any depth, and every text after it", "why_tests_cant": "The element is not parsed but scanned for its end tag, with a count of the open ones; comments, CDATA sections, quoted attribute values, raw text elements and tags that leave foreign content all change what an end tag in the source means.", "anchors": ["src/justhtml/parser/engine.py:ParseEngine._skip_subtree", "src/justhtml/parser/engine.py:ParseEngine._parse_compiled_safe_start_tag"]}
{"id": "C75", "title": "The default engine's tables allow exactly what the policy allows", "statement": "For every tag of the default policies and every attribute list: the default engine, which works from a table compiled from the policy, gives the tag the same attributes with the same values as sanitizing the parsed tree with that policy does, also when reading and sanitizing are done in one pass over the source. Whatever the values, an attribute that is kept is one the policy allows for the tag, and a kept URL has an allowed scheme and is not protocol-relative. The tables allow exactly the policy's tags and drop the content of exactly the policy's.", "quantifier": "every tag name, every list of attributes with every value, both default policies", "why_tests_cant": "The policy is interpreted twice by different code, once compiled into the parser's table with a short URL check and once over the tree; they must agree on every value.", "anchors": ["src/justhtml/parser/engine.py:_compile_tag_actions", "src/justhtml/parser/engine.py:compile_engine_plan", "src/justhtml/parser/engine.py:ParseEngine._sanitize_parsed_attrs", "src/justhtml/parser/engine.py:ParseEngine._parse_attrs_for_action"]}
{"id": "C76", "title": "The default engine opens and closes elements as the full parser does", "statement": "For every history of ordinary start and end tags in the body, with formatting elements opened and closed in between: the default sanitizing engine, with its short paths for simple tags, has the same elements open as the full parser and the HTML standard, and makes the same elements in the same places, except void elements the policy removes anyway. Every end tag does the same as in the full parser, whatever is open.", "quantifier": "every sequence of start and end tags, every stack of open elements, both default policies", "why_tests_cant": "The default engine is a second tree builder with its own tables, its own order of tests and short cuts that skip the search for open paragraphs; a wrong short cut shows only for certain stacks.", "anchors": ["src/justhtml/parser/engine.py:ParseEngine._parse_compiled_safe_start_tag", "src/justhtml/parser/engine.py:ParseEngine._parse_compiled_safe_end_tag", "src/justhtml/parser/engine.py:ParseEngine._insert_compiled_safe_element", "src/justhtml/parser/engine.py:ParseEngine._should_insert_unwrapped_element"]}
{"id": "C77", "title": "A frameset replaces only a body with nothing in it to lose", "statement": "For every history of start tags and every tree of the body: a frameset is accepted in place of the body just when the input is no fragment, no frameset was accepted before, no body tag and no tag that blocks it (form controls, embedded objects, list definitions and the like) was read outside a template, and everything in the body is white space, a hidden input, one of the listed harmless elements or foreign content without text. The body is then empty. No content that the HTML standard would keep is lost that way.", "quantifier": "every tree of the body, every sequence of start tags", "why_tests_cant": "The decision is spread over a flag, an explicit stack walk over the tree and a second walk over foreign content; content is lost silently when one of them misses a case.", "anchors": ["src/justhtml/parser/engine.py:ParseEngine._accept_frameset", "src/justhtml/parser/engine.py:ParseEngine._body_allows_frameset", "src/justhtml/parser/engine.py:ParseEngine._foreign_subtree_allows_frameset"]}
