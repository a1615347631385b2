{
 "claims": [
  {
   "property": "C01",
   "status": "proved",
   "theorems": [
    "C01_escaped_text_is_inert",
    "C01_document_of_escaped_text"
   ],
   "note": "escape_text, for every text, in the data and RCDATA states and with any following output."
  },
  {
   "property": "C02",
   "status": "proved",
   "theorems": [
    "C02_escaped_attr_value_stays_quoted"
   ],
   "note": "escape_attr_value for both quotes; NUL is read as U+FFFD by any tokenizer."
  },
  {
   "property": "C03",
   "status": "partial",
   "theorems": [
    "C03_start_tag_reads_as_itself",
    "C03_end_tag_reads_as_itself",
    "C03_unsafe_names_rejected",
    "C03_final_newline_refuted"
   ],
   "note": "Every accepted start/end tag, all options, and the exact set of rejected names; 'reads as that name' fails for names ending in a newline (C03_final_newline_refuted), which the regexes accept."
  },
  {
   "property": "C04",
   "status": "proved",
   "theorems": [
    "C04_comment_is_one_token"
   ],
   "note": "Every comment data; data changes at most by added spaces."
  },
  {
   "property": "C05",
   "status": "proved",
   "theorems": [
    "C05_pi_is_one_token"
   ],
   "note": ""
  },
  {
   "property": "C06",
   "status": "partial",
   "theorems": [
    "C06_doctype_is_one_token",
    "C06_doctype_round_trips",
    "C06_nameless_doctype_refuted"
   ],
   "note": "One token, always; identifiers are exact when free of & < > and double quote; a doctype without a name is misread (C06_nameless_doctype_refuted)."
  },
  {
   "property": "C07",
   "status": "partial",
   "theorems": [
    "C07_raw_text_cannot_close_its_element",
    "C07_two_text_nodes_refuted",
    "C07_text_lost_refuted"
   ],
   "note": "Single text node (what the parser builds). Two adjacent text nodes can close the element (C07_two_text_nodes_refuted); text can be lost (C07_text_lost_refuted)."
  },
  {
   "property": "C08",
   "status": "partial",
   "theorems": [
    "C08_script_cannot_close_its_element_partial",
    "C08_double_escaped_script_refuted"
   ],
   "note": "Scripts without '<!--' ... '<script'; the other case is refuted."
  },
  {
   "property": "C09",
   "status": "proved",
   "theorems": [
    "C09_tree_reads_back",
    "C09_tree_tokenizes_back",
    "C09_serializer_total"
   ],
   "note": "All trees HTML syntax can express (void elements empty, RCDATA holds text, at most one text node in raw text elements, scripts as in C08). Foreign elements are not covered; the pretty printer is C54."
  },
  {
   "property": "C10",
   "status": "proved",
   "theorems": [
    "C10_js_string_evaluates_back",
    "C10_js_string_is_inert",
    "C10_js_string_rejects_other_quotes",
    "C10_text_in_js_reads_back"
   ],
   "note": ""
  },
  {
   "property": "C11",
   "status": "proved",
   "theorems": [
    "C11_url_escape_decodes_back",
    "C11_url_escape_injective",
    "C11_url_escape_alphabet",
    "C11_url_escape_raises_on_surrogates"
   ],
   "note": "Raises exactly on lone surrogates."
  },
  {
   "property": "C12",
   "status": "proved",
   "theorems": [
    "C12_cleaned_url_scheme_is_allowed",
    "C12_clean_url_value"
   ],
   "note": "The URL cleaner with handling allow for every rule (lower-case valid schemes), value, filter; and clean_url_value."
  },
  {
   "property": "C13",
   "status": "proved",
   "theorems": [
    "C13_default_href",
    "C13_default_img_src"
   ],
   "note": "Both the parse-time path and the general path of the default policy; stronger: img[src] is never absolute nor protocol-relative."
  },
  {
   "property": "C14",
   "status": "proved",
   "theorems": [
    "C14_output_never_protocol_relative",
    "C14_protocol_relative_is_resolved"
   ],
   "note": ""
  },
  {
   "property": "C15",
   "status": "proved",
   "theorems": [
    "C15_host_allowlist"
   ],
   "note": "ipaddress/NFKC checks inside urllib are arbitrary parameters. A degenerate 0x label and hosts with a trailing dot count as names."
  },
  {
   "property": "C16",
   "status": "proved",
   "theorems": [
    "C16_strip_never_returns",
    "C16_proxy_without_proxy",
    "C16_proxy_shape"
   ],
   "note": ""
  },
  {
   "property": "C17",
   "status": "partial",
   "theorems": [
    "C17_allow_fragment_false",
    "C17_allow_relative_false_partial",
    "C17_allow_relative_refuted"
   ],
   "note": "allow_fragment fully; allow_relative=False for results without spaces; with a space the claim is refuted ('h ttps://x')."
  },
  {
   "property": "C18",
   "status": "proved",
   "theorems": [
    "C18_srcset",
    "C18_space_list",
    "C18_comma_or_space_list"
   ],
   "note": "srcset, space lists and comma/space lists with handling allow."
  },
  {
   "property": "C19",
   "status": "partial",
   "theorems": [
    "C19_meta_refresh_partial",
    "C19_meta_refresh_prefix_refuted",
    "C19_meta_refresh_quote_refuted"
   ],
   "note": "Proved when the part before ';' is a number and the cleaned URL does not begin with a quote; both other cases are refuted by witnesses that reach a host outside allowed_hosts."
  },
  {
   "property": "C20",
   "status": "partial",
   "theorems": [
    "C20_fast_path_agrees_partial",
    "C20_fast_path_agrees_refuted",
    "C20_fast_path_safe"
   ],
   "note": "Agreement for values without backslashes and without spaces in //-like values; refuted otherwise; the safety guarantees of C12 and C14 hold for every value."
  },
  {
   "property": "C21",
   "status": "partial",
   "theorems": [
    "C21_declared_properties_are_allowed",
    "C21_no_backslash",
    "C21_functions_are_harmless_partial",
    "C21_functions_with_comments_partial",
    "C21_comment_in_string_refuted",
    "C21_dotted_I_refuted"
   ],
   "note": "Names of declarations and absence of escapes: every input. Absence of dangerous functions and validation of every url(): inputs without comment openers and U+0130, or (no URL rules) inputs without quotes; the two remaining cases are refuted (a real bypass: a comment opener inside a string)."
  },
  {
   "property": "C22",
   "status": "partial",
   "theorems": [
    "C22_policies_are_valid",
    "C22_total",
    "C22_elements_and_attributes",
    "C22_guarded_urls",
    "C22_link_rel",
    "C22_default_no_event_handlers",
    "C22_rawtext",
    "C22_no_foreign_drop",
    "C22_foreign_is_bare_partial",
    "C22_no_foreign_refuted"
   ],
   "note": "Elements, attributes, URL/style values, rel tokens, raw text, totality and (drop mode) foreign elements are proved for every tree and policy. 'No foreign element remains' is false in unwrap/escape mode (C22_no_foreign_refuted: <x><svg><a>); proved there: a foreign element that is left has no element inside."
  },
  {
   "property": "C23",
   "status": "proved",
   "theorems": [
    "C23_no_comments",
    "C23_no_doctypes",
    "C23_dropped_content"
   ],
   "note": "Comments, PIs, doctypes, and non-interference of everything inside dropped-content elements (tree and findings)."
  },
  {
   "property": "C24",
   "status": "partial",
   "theorems": [
    "C24_idempotent_partial",
    "C24_default_idempotent_partial",
    "C24_text",
    "C24_exact_structure_partial",
    "C24_foreign_refuted",
    "C24_escape_refuted"
   ],
   "note": "Idempotence for policies with idempotent value checks (built-in policies included), trees without foreign elements or drop mode; general statement refuted (foreign hoist, escape mode). Text is a subsequence: proved (not escape mode, script/style not allowed)."
  },
  {
   "property": "C25",
   "status": "proved",
   "theorems": [
    "C25_clean_unchanged"
   ],
   "note": "Clean trees (spec in SanSpec.v) come back unchanged with no findings."
  },
  {
   "property": "C26",
   "status": "proved",
   "theorems": [
    "C26_strip",
    "C26_raise",
    "C26_raise_iff_collected",
    "C26_collect"
   ],
   "note": "strip/raise/collect agree; collect: permutation of findings, sorted, stable, independent of history, other errors in the sink kept. In raise mode the model computes the rest of the run and ignores it."
  },
  {
   "property": "C27",
   "status": "partial",
   "theorems": [
    "C27_charrefs_decode_as_html_partial",
    "C27_charrefs_decode_plain",
    "C27_text_without_amp_unchanged",
    "C27_raises_refuted",
    "C27_nonascii_digits_refuted",
    "C27_attribute_refuted"
   ],
   "note": "Proved whenever no reference's ASCII characters run directly into a letter or digit outside ASCII (exactly the places the code looks at); outside that the claim is false and refuted by witnesses, including an uncaught ValueError."
  },
  {
   "property": "C28",
   "status": "partial",
   "theorems": [
    "C28_forest",
    "C28_full_forest_partial",
    "C28_failing_calls_change_nothing",
    "C28_editing_terminates",
    "C28_append_child",
    "C28_insert_before",
    "C28_insert_before_none",
    "C28_replace_child",
    "C28_remove_child",
    "C28_template_content_cycle_refuted"
   ],
   "note": "Forest (parent/child agreement, no duplicates, no cycles) proved after every history of calls; exact effect of append/insert/replace/remove, exceptions change nothing, termination. Downward acyclicity through template contents proved when no template_content object is passed to an insertion method, refuted otherwise (C28_template_content_cycle_refuted)."
  },
  {
   "property": "C29",
   "status": "partial",
   "theorems": [
    "C29_deep_clone",
    "C29_shallow_clone",
    "C29_deep_clone_may_not_end_refuted",
    "C29_deep_ignores_override_refuted"
   ],
   "note": "Deep clone: terminates, same tree, fresh nodes and dicts, originals untouched, on every history that never re-inserts a template_content object (refuted otherwise). Shallow clone with override_attrs exact. Deep clones ignore override_attrs (refuted theorem)."
  },
  {
   "property": "C30",
   "status": "partial",
   "theorems": [
    "C30_parse",
    "C30_numbers_do_not_matter",
    "C30_matches_sound_partial",
    "C30_query_sound_partial",
    "C30_not_refuted",
    "C30_document_node_refuted",
    "C30_doctype_refuted"
   ],
   "note": "Grammar-based text semantics (parser proved against it); sound for every selector without combinators inside :not() whose left parts are anchored; the exceptions are refuted with witnesses."
  },
  {
   "property": "C31",
   "status": "partial",
   "theorems": [
    "C31_matches_complete_partial",
    "C31_query_complete_partial",
    "C31_nearest_ancestor_refuted",
    "C31_query_cache_refuted"
   ],
   "note": "Exact for selectors where the nearest candidate suffices (nearest_ok), for query() also descendants_apart; greedy ancestor choice and the ancestor cache are refuted with witnesses (both are defects of the code)."
  },
  {
   "property": "C32",
   "status": "proved",
   "theorems": [
    "C32_nth_arithmetic",
    "C32_nth_notation",
    "C32_nth_selectors"
   ],
   "note": "Arithmetic for all integers, the An+B notation, and end to end from the selector text."
  },
  {
   "property": "C33",
   "status": "proved",
   "theorems": [
    "C33_document_order",
    "C33_query_in_document_order",
    "C33_query_terminates",
    "C33_matches_terminates",
    "C33_tag_query",
    "C33_tag_query_agrees"
   ],
   "note": "Order, no duplicates, termination for every selector; tag fast path exact and equal to the general matcher; 'exactly the matches' for other selectors is C30/C31."
  },
  {
   "property": "C34",
   "status": "proved",
   "theorems": [
    "C34_supported",
    "C34_bom",
    "C34_transport",
    "C34_unknown_label",
    "C34_meta_or_default",
    "C34_meta_found",
    "C34_default"
   ],
   "note": "decode_html/sniff_html_encoding and the prescan modelled byte by byte; the decoders themselves (bytes.decode) are Python's. C34_meta_found covers the usual spellings of the tag after text and comments; C34_meta_or_default is for all inputs."
  },
  {
   "property": "C35",
   "status": "proved",
   "theorems": [
    "C35_prescan_terminates",
    "C35_window",
    "C35_later_bytes",
    "C35_text_limit"
   ],
   "note": "Termination, the 65536-byte window and the 1024-byte text limit for all inputs."
  },
  {
   "property": "C36",
   "status": "partial",
   "theorems": [
    "C36_spans",
    "C36_spans_any_finder",
    "C36_surroundings",
    "C36_fuzzy",
    "C36_brackets",
    "C36_href",
    "C36_authority",
    "C36_maximal",
    "C36_never_raises_partial",
    "C36_never_raises_refuted"
   ],
   "note": "Spans exact, ordered, disjoint, safe hrefs, boundary, known TLD or allowed IPv4, nothing lost by the overlap filter: all proved for the modelled candidate regex, and the span/href part for any candidate finder. 'Never raises' holds for texts whose digits are decimal; it is refuted in general (finding: 1.2.3.<superscript 2> raises ValueError)."
  },
  {
   "property": "C37",
   "status": "partial",
   "theorems": [
    "C37_pieces",
    "C37_links",
    "C37_tree",
    "C37_text_kept",
    "C37_skipped",
    "C37_skip_tags_refuted"
   ],
   "note": "Proved on whole trees for every skip_tags containing 'a' (the default): terminates, only text nodes outside skipped elements change, text preserved. Refuted for skip_tags without 'a' (never terminates)."
  },
  {
   "property": "C38",
   "status": "proved",
   "theorems": [
    "C38_same_list",
    "C38_last_index_of",
    "C38_last_index_of_any",
    "C38_last_html_index_of",
    "C38_last_html_index",
    "C38_last_rendered_index",
    "C38_last_html_index_of_any",
    "C38_last_foreign_boundary_index",
    "C38_last_scope_boundary_index",
    "C38_last_template_boundary_index",
    "C38_contains",
    "C38_index_of_node",
    "C38_count_of"
   ],
   "note": "Every history of append/insert/setitem/pop/remove/del (index and positive-step slice) over distinct nodes: same list and same exceptions as a plain list, and all twelve lookups equal the scan of that list. Four lookups assume the bottom element is not itself a match (true of the document root; Example C38_bottom shows the difference otherwise)."
  },
  {
   "property": "C39",
   "status": "partial",
   "theorems": [
    "C39_comment_partial",
    "C39_bang_first_refuted",
    "C39_three_dashes_refuted",
    "C39_unfinished_refuted"
   ],
   "note": "The comment scanner gives the data and the end of the standard's comment states on every string, except three classes shown to be refuted by witnesses: a comment starting with !>, an odd run of at least three dashes before !>, and an unfinished comment ending with --!."
  },
  {
   "property": "C40",
   "status": "partial",
   "theorems": [
    "C40_attributes_partial",
    "C40_ascii",
    "C40_skip_agrees",
    "C40_first_wins",
    "C40_case_refuted",
    "C40_reference_refuted",
    "C40_raises_refuted"
   ],
   "note": "_parse_all_attrs and _skip_attrs against the attribute states of the standard's tokenizer: names, values, order, first-wins, self-closing flag and end, for start and end tags; unconditional for ASCII. Hypotheses only where the code differs (witnesses): cased non-ASCII letters in names (str.lower) and references followed by non-ASCII alphanumerics."
  },
  {
   "property": "C41",
   "status": "partial",
   "theorems": [
    "C41_fused_partial",
    "C41_safe",
    "C41_rest_is_suffix",
    "C41_duplicates_refuted",
    "C41_equals_refuted",
    "C41_carriage_return_refuted",
    "C41_nul_refuted",
    "C41_unclosed_refuted"
   ],
   "note": "The one-pass parser equals parse-then-sanitize for closed tags with distinct names, none starting with =, and values without CR and NUL; each hypothesis is needed (five witnesses). Unconditionally, every attribute it gives has an allowed name and a value accepted by its URL rule, or is kept for parser state only. The URL rule and the invisible-character filter are parameters here (modelled in UrlModel / MiscModel)."
  },
  {
   "property": "C42",
   "status": "partial",
   "theorems": [
    "C42_rawtext_text",
    "C42_rawtext",
    "C42_rcdata",
    "C42_script_text",
    "C42_script_partial",
    "C42_quote_refuted",
    "C42_script_refuted"
   ],
   "note": "find_rawtext_end_tag and find_script_end_tag against the standard's RAWTEXT, RCDATA and script data states: the text is always the standard's (script: when the end tags inside an escaped script have plain tails), and the parser resumes where the standard does when the end tag has no quotation marks. Witnesses show both hypotheses are needed."
  },
  {
   "property": "C43",
   "status": "partial",
   "theorems": [
    "C43_events",
    "C43_ends",
    "C43_text",
    "C43_no_empty_text",
    "C43_attribute_names"
   ],
   "note": "The scanner of stream.py (whole file): for every string it ends, its open-element bookkeeping never fails and the events cover the html piece by piece in order (C43_events, C43_ends; the only exception is the ValueError of C27). The specification determines every piece: tag names, attribute lists (first wins), comment ends, doctype identifiers, end-tag tails, raw-text ends, unfinished tags. C43_text, C43_no_empty_text, C43_attribute_names. Partial: foreign content after an svg/math tag and script text containing <!-- are left open by the specification."
  },
  {
   "property": "C44",
   "status": "partial",
   "theorems": [
    "C44_token_partial",
    "C44_force_sound",
    "C44_extent",
    "C44_mode_partial",
    "C44_table_partial",
    "C44_srcdoc_partial",
    "C44_missing_prefix_refuted",
    "C44_empty_system_refuted",
    "C44_force_refuted",
    "C44_srcdoc_refuted"
   ],
   "note": "Tokenizer half: parse_doctype agrees with an independent WHATWG DOCTYPE tokenizer whenever that one does not set force-quirks, and never sets the flag wrongly; mode half: the quirks / limited-quirks tables agree from source text to mode. Refuted (with witnesses): one missing public-id prefix, empty system identifier treated as missing, force-quirks lost after PUBLIC/SYSTEM, srcdoc documents with the flag."
  },
  {
   "property": "C45",
   "status": "partial",
   "theorems": [
    "C45_text",
    "C45_text_html",
    "C45_rule",
    "C45_code_span_partial",
    "C45_code_span_plain",
    "C45_code_span_content",
    "C45_fence",
    "C45_pre",
    "C45_document_partial",
    "C45_code_span_refuted",
    "C45_pre_refuted",
    "C45_block_start_refuted",
    "C45_reference_refuted",
    "C45_image_refuted",
    "C45_code_space_refuted"
   ],
   "note": "Text nodes: displayed as their words, no <, no & outside &lt;/&amp;. Code spans: closed by their own fence and the content comes back, except for a text that is one line break (refuted: it yields two backticks and exposes later code as HTML). pre: one fenced block, except with a CR inside a blockquote (refuted). Whole documents without img/table/pre follow an inline grammar. Refuted too: block starts (##, -), reference definitions, ! before a link."
  },
  {
   "property": "C46",
   "status": "partial",
   "theorems": [
    "C46_shape",
    "C46_wrapped",
    "C46_bare_partial",
    "C46_total",
    "C46_link_partial",
    "C46_backslash_refuted",
    "C46_whitespace_refuted",
    "C46_entity_refuted"
   ],
   "note": "Shape of every destination; <...> destinations end where written and percent-decode to the URL; bare ones end where written and are the URL if they hold no backslash and no control character. Refuted: trailing backslash, form feed, character references (a javascript: URL the default policy keeps)."
  },
  {
   "property": "C47",
   "status": "partial",
   "theorems": [
    "C47_exact",
    "C47_none_left",
    "C47_idempotent",
    "C47_text_partial",
    "C47_attrs_partial",
    "C47_default",
    "C47_escape_refuted"
   ],
   "note": "Function level complete (exactly the listed code points are deleted, for every string). Sanitized trees: no listed code point in any text or attribute value, fully for the built-in policies; custom policies need idempotent URL/CSS rules and no escape mode (refuted there)."
  },
  {
   "property": "C48",
   "status": "proved",
   "theorems": [
    "C48_bounded",
    "C48_nothing_lost",
    "C48_sorted",
    "C48_stable"
   ],
   "note": "Bounded by max_errors, permutation of the first max_errors reported, sorted by position, stable; positions below 10^9 (the sort key for a missing position)."
  },
  {
   "property": "C49",
   "status": "partial",
   "theorems": [
    "C49_terminates",
    "C49_sound",
    "C49_exact_partial",
    "C49_star_in_name_refuted",
    "C49_drop_attrs_partial",
    "C49_default_patterns",
    "C49_blank_name_refuted"
   ],
   "note": "Matcher terminates and is sound for all inputs, complete for names without a literal star (refuted otherwise); DropAttrs removes exactly the matching attributes for lower-case, non-blank, star-free names; default patterns exact for every name."
  },
  {
   "property": "C50",
   "status": "partial",
   "theorems": [
    "C50_collapse",
    "C50_collapse_idempotent",
    "C50_collapse_content",
    "C50_pretty_partial",
    "C50_words_exist",
    "C50_pretty_idempotent_partial",
    "C50_nbsp_refuted",
    "C50_formatting",
    "C50_formatting_exact"
   ],
   "note": "CollapseWhitespace and formatting normalisation fully; pretty-printer collapse = words joined by one space for texts whose white space is HTML white space (refuted for U+00A0)."
  },
  {
   "property": "C51",
   "status": "proved",
   "theorems": [
    "C51_ascii_lower_preserves_offsets"
   ],
   "note": ""
  },
  {
   "property": "C52",
   "status": "proved",
   "theorems": [
    "C52_exact",
    "C52_lines_and_columns",
    "C52_monotone",
    "C52_past_the_end"
   ],
   "note": "Exact line/column for every offset and text, strictly monotone, offsets past the end clamp."
  },
  {
   "property": "C53",
   "status": "proved",
   "theorems": [
    "C53_step",
    "C53_at_most_three",
    "C53_duplicate",
    "C53_find",
    "C53_retired"
   ],
   "note": "Every history of operations on the list of active formatting elements (push with Noah's Ark, fast push, markers, clear, lazy retire, compaction, replacement by the adoption agency) keeps its live view equal to the plain list of the standard, at most three equal entries after the last marker, and the index agrees with a scan. Precondition of Replace (ok_op): the clone goes after the last marker and after its equals; where the adoption agency puts the bookmark is not part of C53. Entry nodes and the DOM are not modelled."
  },
  {
   "property": "C54",
   "status": "proved",
   "theorems": [
    "C54_same_markup",
    "C54_same_text",
    "C54_tokens",
    "C54_raises",
    "C54_raises_only",
    "C54_preformatted"
   ],
   "note": "Markup equality for all expressible trees; text equality additionally needs that no iframe/noembed/noframes/xmp mentions its own end tag (C55_rawtext_refuted shows this is necessary). Documents only as root."
  },
  {
   "property": "C55",
   "status": "partial",
   "theorems": [
    "C55_text_partial",
    "C55_words_joined_refuted",
    "C55_word_split_refuted",
    "C55_nbsp_refuted",
    "C55_rawtext_refuted"
   ],
   "note": "Proved for elements holding one text. Refuted in general by kernel-checked witnesses: words joined, one word split, no-break space dropped, raw text changed."
  },
  {
   "property": "C56",
   "status": "proved",
   "theorems": [
    "C56_texts_defined",
    "C56_text",
    "C56_blocks",
    "C56_nothing_lost",
    "C56_blocks_nothing_lost",
    "C56_br_content_refuted",
    "C56_contains",
    "C56_same_as_html"
   ],
   "note": "All trees, separators and flags. C56_br_content_refuted: separator_blocks_only drops text inside a br element (only the DOM API can build one). C56_same_as_html assumes trees HTML syntax can express, as C09."
  },
  {
   "property": "C57",
   "status": "partial",
   "theorems": [
    "C57_total",
    "C57_batch_partial",
    "C57_hoist_refuted",
    "C57_hoist_attrs_refuted",
    "C57_collapse_refuted",
    "C57_decide_chain_refuted",
    "C57_drop",
    "C57_drop_comments",
    "C57_drop_doctype",
    "C57_drop_complete",
    "C57_bulk_drop",
    "C57_empty",
    "C57_set_attrs",
    "C57_set_values",
    "C57_set_others",
    "C57_set_none_partial",
    "C57_set_none_refuted",
    "C57_edit_attrs",
    "C57_edit_chain_refuted",
    "C57_decide_unwrap",
    "C57_decide_unwrap_complete",
    "C57_unwrap_partial",
    "C57_unwrap_nested_refuted",
    "C57_unwrap_flat",
    "C57_text_kept"
   ],
   "note": "Totality, exact effect of every single transform (any selectors and callbacks looking at a node's name and attributes) and batching when only the first transform of a batch hoists are proved; the unrestricted batching claim, Unwrap on directly nested matches, SetAttrs with None and the fused Decide/EditAttrs chains are refuted by kernel-checked witnesses. Selectors that look at ancestors or siblings are outside the local_t hypothesis."
  },
  {
   "property": "C58",
   "status": "partial",
   "theorems": [
    "C58_shape",
    "C58_words",
    "C58_leading",
    "C58_trailing_refuted",
    "C58_idempotent_partial"
   ],
   "note": "Shape, words, single spacing and leading edges are proved for all trees and options; trailing trimming and idempotence with trim_blocks=True are refuted by a witness (idempotence proved for trim_blocks=False)."
  },
  {
   "property": "C59",
   "status": "partial",
   "theorems": [
    "C59_exact_partial",
    "C59_doctype_refuted",
    "C59_none_left",
    "C59_idempotent",
    "C59_texts",
    "C59_root"
   ],
   "note": "Everything proved for all trees and selectors; exactness needs selectors that do not match the doctype - PruneEmpty('*') removes it (refuted)."
  },
  {
   "property": "C60",
   "status": "proved",
   "theorems": [
    "C60_finish",
    "C60_context",
    "C60_nodes",
    "C60_order",
    "C60_harmless",
    "C60_threshold",
    "C60_set"
   ],
   "note": "Trees of numbered nodes with children lists and parent links; both strategies of the unwrapping pass, the dropping pass and the removal of the fragment context, for all forests and all sets of recorded nodes. That every disallowed node is recorded while the tree is built is not part of the model."
  },
  {
   "property": "C61",
   "status": "partial",
   "theorems": [
    "C61_bounded",
    "C61_select",
    "C61_document_partial",
    "C61_recorded_partial",
    "C61_sanitized_partial",
    "C61_recorded_refuted"
   ],
   "note": "Termination, budget, untouched originals and one select element: proved for all trees. Whole document and recording of the copies: proved if no select is inside a select; refuted otherwise (C61_recorded_refuted: a javascript: link survives the default sanitizer)."
  },
  {
   "property": "C62",
   "status": "partial",
   "theorems": [
    "C62_adoption_agency_partial",
    "C62_few_blocks",
    "C62_current_node",
    "C62_bookmark_refuted",
    "C62_any_other_refuted",
    "C62_current_refuted",
    "C62_foreign_refuted"
   ],
   "note": "Proved: same tree operations, stack, and (unless eight rounds are used up) list as the standard, for HTML elements, when the element is listed and not in the step-2 situation; identical below eight special elements; current node of the name with nothing listed. Refuted by witnesses: bookmark after eight rounds, any other end tag, unlisted current node, foreign scope boundaries."
  },
  {
   "property": "C63",
   "status": "partial",
   "theorems": [
    "C63_element",
    "C63_element_total",
    "C63_doctype",
    "C63_shorthand_one_reading",
    "C63_flatten_one_reading",
    "C63_built_serializes",
    "C63_built_start_tag",
    "C63_newline_refuted"
   ],
   "note": "Equivalence, totality, unique reading, serializability and read-back proved for all arguments. Partial: an attribute name that ends in a newline is accepted although HTML cannot carry it (C63_newline_refuted); children that already have a parent are covered by DomModel (C28), not here."
  },
  {
   "property": "C64",
   "status": "partial",
   "theorems": [
    "C64_reconstruct",
    "C64_lazy_partial",
    "C64_clear_flag_means_open",
    "C64_template_refuted",
    "C64_caption_refuted",
    "C64_order_refuted"
   ],
   "note": "Reconstruction itself is proved for every state (C64_reconstruct) and the lazy flag for every history in which: text directly in a caption finds nothing to reopen, a template ends with nothing to reopen, and the adoption agency leaves the list in stack order. Each of the three restrictions is shown necessary by a _refuted theorem. Which start tags reconstruct is a parameter, the same on both sides."
  },
  {
   "property": "C65",
   "status": "partial",
   "theorems": [
    "C65_accounted_partial",
    "C65_finished_partial",
    "C65_no_foreign_partial",
    "C65_html_partial",
    "C65_link_refuted"
   ],
   "note": "Proved for all histories without the case tame excludes (an a start tag which, after an earlier a was closed, would be made a foreign element), in particular for all input without svg and math start tags; without that condition the property is false (C65_link_refuted: a javascript: link survives the default sanitizer). Not modelled: which elements are closed when (the stack may be set to any list)."
  },
  {
   "property": "C66",
   "status": "partial",
   "theorems": [
    "C66_history_partial",
    "C66_start_partial",
    "C66_end_partial",
    "C66_paragraphs_partial",
    "C66_foreign_partial",
    "C66_definitions_partial",
    "C66_body_stays_partial",
    "C66_deep_search",
    "C66_dd_start_refuted",
    "C66_dd_end_refuted",
    "C66_button_refuted",
    "C66_ruby_refuted",
    "C66_li_refuted",
    "C66_dialog_refuted",
    "C66_points_refuted"
   ],
   "note": "Equality with the standard for every history of ordinary tags and changes of formatting, except in the cases ok_start and ok_end leave out, each of which a refuted theorem shows to be a deviation; invariants of the stacks reached; the deep search equals the plain one on every stack. Left out: tables, select, forms, templates, head and raw text elements, fragments; positions."
  },
  {
   "property": "C67",
   "status": "partial",
   "theorems": [
    "C67_history_partial",
    "C67_formatting_partial",
    "C67_modes_partial",
    "C67_parents",
    "C67_nesting_partial",
    "C67_end_points_refuted",
    "C67_table_in_point_refuted",
    "C67_cell_without_table_refuted",
    "C67_row_with_point_refuted",
    "C67_col_end_refuted",
    "C67_select_refuted",
    "C67_foreign_section_refuted",
    "C67_colgroup_flag_refuted",
    "C67_formatting_refuted"
   ],
   "note": "Equality with the standard (open elements, elements made and their places, formatting list, insertion mode) for every history of the ten tags with arbitrary ordinary content between, except the cases ok_tag / ok_marks leave out, each shown to be a deviation by a refuted theorem; C67_parents (nesting of what is made) holds on every stack with a table open. Left out: foster parented text and elements, templates, select, frameset, fragments, positions."
  },
  {
   "property": "C68",
   "status": "partial",
   "theorems": [
    "C68_order_partial",
    "C68_history_partial",
    "C68_order_refuted"
   ],
   "note": "Proved for all tags but col and colgroup on every stack with a table open, and for all histories of C67; false in general (C68_order_refuted: SVG elements named tbody and thead in an integration point)."
  },
  {
   "property": "C69",
   "status": "partial",
   "theorems": [
    "C69_history_partial",
    "C69_white_partial",
    "C69_nothing_lost",
    "C69_one_place",
    "C69_space_after_refuted",
    "C69_space_before_refuted",
    "C69_reference_refuted",
    "C69_nothing_between_refuted",
    "C69_fragment_refuted"
   ],
   "note": "Equality with the standard (tree, open elements) for every history of text runs, start tags, comments, closings and reopenings, except the cuts of text ok_run leaves out, each shown to be a deviation by a refuted theorem; conservation of text and uniqueness of places hold for every history at all. Documents, raw mode; which elements close is C66/C67; moves by the adoption agency are C62."
  },
  {
   "property": "C70",
   "status": "partial",
   "theorems": [
    "C70_newlines",
    "C70_no_carriage_return",
    "C70_text",
    "C70_raw_text",
    "C70_xml_text",
    "C70_coercion",
    "C70_xml_characters_partial",
    "C70_xml_characters_refuted",
    "C70_xml_comment_partial",
    "C70_xml_comment_refuted",
    "C70_comment_text",
    "C70_surrogates",
    "C70_surrogates_only",
    "C70_comment"
   ],
   "note": "Newlines, NUL, decoding order, invisible code points, pointwise coercion, surrogate pairs: for every input. Refuted and therefore partial: comments with --- or a final hyphen, and text with C0 controls or lone surrogates, are not legal XML after coercion."
  },
  {
   "property": "C71",
   "status": "proved",
   "theorems": [
    "C71_exact",
    "C71_unique",
    "C71_round_trip",
    "C71_clean"
   ],
   "note": "Exact relation in both directions and the full round trip, for every content and every flag of the later parse."
  },
  {
   "property": "C72",
   "status": "partial",
   "theorems": [
    "C72_runs_what_was_asked",
    "C72_one_grouping",
    "C72_type_error",
    "C72_fused",
    "C72_sanitizes_partial",
    "C72_sanitizes_last",
    "C72_sanitizes_refuted",
    "C72_sanitize_ends_its_walk",
    "C72_final_sanitize_partial",
    "C72_final_sanitize_refuted",
    "C72_source_text_for_escape",
    "C72_parse_limits",
    "C72_match_limits_partial",
    "C72_match_limits_refuted",
    "C72_chained_attributes_partial",
    "C72_chained_attributes_refuted"
   ],
   "note": "The trace of hooks and operations is exactly the documented one for every list, policy and flag (C72_runs_what_was_asked), likewise TypeError, the fused engine, the appended Sanitize, source text for escaping, parse limits. Refuted: a disabled Sanitize switches sanitizing off; an Edit in the walk of the final Sanitize can put unsafe content behind it; HardenRawtext changes the limits of matching; chained EditAttrs. Node functions, callbacks and reports are opaque numbers; what they do to nodes is in C22-C24, C36, C57-C59."
  },
  {
   "property": "C73",
   "status": "partial",
   "theorems": [
    "C73_source_names",
    "C73_attributes_partial",
    "C73_names_distinct",
    "C73_attributes_refuted",
    "C73_elements_partial",
    "C73_elements_refuted",
    "C73_round_trip"
   ],
   "note": "All attribute names as in the standard, values, places and distinctness kept, for names without U+212A (which the source must spell out); all element names but fedropshadow; round trip. Refuted: U+212A counts as k; feDropShadow is missing from the table."
  },
  {
   "property": "C74",
   "status": "partial",
   "theorems": [
    "C74_skips_subtree_partial",
    "C74_ends_at_end_tag",
    "C74_drops_to_end",
    "C74_total",
    "C74_unclosed_partial",
    "C74_self_closing_refuted",
    "C74_inner_self_closing_refuted",
    "C74_attribute_refuted",
    "C74_comment_refuted"
   ],
   "note": "Proved for all inputs: where the drop stops, when everything is dropped, termination. The main statement holds for content without greater-than signs in attribute values, less-than signs in comments, elements of special_names and self-closing tags with the name of the root; without those restrictions it is refuted by witnesses."
  },
  {
   "property": "C75",
   "status": "partial",
   "theorems": [
    "C75_same_attributes_partial",
    "C75_one_pass_partial",
    "C75_safe",
    "C75_one_pass_safe",
    "C75_tags",
    "C75_no_entry",
    "C75_unread",
    "C75_flags",
    "C75_backslash_refuted",
    "C75_space_refuted",
    "C75_other_policies_refuted"
   ],
   "note": "Proved for the two default policies (the only ones compiled): same attributes and values as the tree sanitizer, on the attribute list and, with C41's conditions, in one pass over the source; unconditional safety of what is kept; tables allow exactly the policy's tags; the flags of the tables name exactly the standard's elements. Missing: URLs with a backslash, or beginning with two slashes and containing a space, where the two differ (refuted with witnesses)."
  },
  {
   "property": "C76",
   "status": "partial",
   "theorems": [
    "C76_history_partial",
    "C76_start_partial",
    "C76_allowed_start",
    "C76_end",
    "C76_ruby_refuted"
   ],
   "note": "Proved against the full parser (every end tag on every stack; every allowed start tag on every reached stack) and the standard (histories). Missing: rb, rp, rt, rtc, for which the engine lacks the rule (refuted with a witness); what C66 leaves out; reconstruction of formatting elements is outside the model."
  },
  {
   "property": "C77",
   "status": "partial",
   "theorems": [
    "C77_body",
    "C77_standard_partial",
    "C77_kept_refuted",
    "C77_comment_refuted",
    "C77_lost_refuted",
    "C77_changes",
    "C77_accepted",
    "C77_accepts",
    "C77_template"
   ],
   "note": "Proved: exactly which bodies may be replaced, over any tree and any history of tags; what the standard keeps is kept where foreign content holds no HTML elements, no U+FFFD and inputs are empty. Missing: the engine keeps bodies the standard replaces (span, comments), and replaces one with an HTML element inside foreign content (refuted with witnesses); fragments with context html."
  }
 ]
}