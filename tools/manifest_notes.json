{
"C01": [
"proved",
"escape_text, for every text, in the data and RCDATA states and with any following output."
],
"C02": [
"proved",
"escape_attr_value for both quotes; NUL is read as U+FFFD by any tokenizer."
],
"C03": [
"partial",
"Every accepted start/end tag, all options, and the exact set of rejected names; 'reads as that name' fails for names ending in a newline (C03_final_newline_refuted), which the regexes accept."
],
"C04": [
"proved",
"Every comment data; data changes at most by added spaces."
],
"C05": [
"proved",
""
],
"C06": [
"partial",
"One token, always; identifiers are exact when free of & < > and double quote; a doctype without a name is misread (C06_nameless_doctype_refuted)."
],
"C07": [
"partial",
"Single text node (what the parser builds). Two adjacent text nodes can close the element (C07_two_text_nodes_refuted); text can be lost (C07_text_lost_refuted)."
],
"C08": [
"partial",
"Scripts without '<!--' ... '<script'; the other case is refuted."
],
"C09": [
"proved",
"All trees HTML syntax can express (void elements empty, RCDATA holds text, at most one text node in raw text elements, scripts as in C08). Foreign elements are not covered; the pretty printer is C54."
],
"C10": [
"proved",
""
],
"C11": [
"proved",
"Raises exactly on lone surrogates."
],
"C12": [
"proved",
"The URL cleaner with handling allow for every rule (lower-case valid schemes), value, filter; and clean_url_value."
],
"C13": [
"proved",
"Both the parse-time path and the general path of the default policy; stronger: img[src] is never absolute nor protocol-relative."
],
"C14": [
"proved",
""
],
"C15": [
"proved",
"ipaddress/NFKC checks inside urllib are arbitrary parameters. A degenerate 0x label and hosts with a trailing dot count as names."
],
"C16": [
"proved",
""
],
"C17": [
"partial",
"allow_fragment fully; allow_relative=False for results without spaces; with a space the claim is refuted ('h ttps://x')."
],
"C18": [
"proved",
"srcset, space lists and comma/space lists with handling allow."
],
"C19": [
"partial",
"Proved when the part before ';' is a number and the cleaned URL does not begin with a quote; both other cases are refuted by witnesses that reach a host outside allowed_hosts."
],
"C20": [
"partial",
"Agreement for values without backslashes and without spaces in //-like values; refuted otherwise; the safety guarantees of C12 and C14 hold for every value."
],
"C21": [
"partial",
"Names of declarations and absence of escapes: every input. Absence of dangerous functions and validation of every url(): inputs without comment openers and U+0130, or (no URL rules) inputs without quotes; the two remaining cases are refuted (a real bypass: a comment opener inside a string)."
],
"C22": [
"partial",
"Elements, attributes, URL/style values, rel tokens, raw text, totality and (drop mode) foreign elements are proved for every tree and policy. 'No foreign element remains' is false in unwrap/escape mode (C22_no_foreign_refuted: <x><svg><a>); proved there: a foreign element that is left has no element inside."
],
"C23": [
"proved",
"Comments, PIs, doctypes, and non-interference of everything inside dropped-content elements (tree and findings)."
],
"C24": [
"partial",
"Idempotence for policies with idempotent value checks (built-in policies included), trees without foreign elements or drop mode; general statement refuted (foreign hoist, escape mode). Text is a subsequence: proved (not escape mode, script/style not allowed)."
],
"C25": [
"proved",
"Clean trees (spec in SanSpec.v) come back unchanged with no findings."
],
"C26": [
"proved",
"strip/raise/collect agree; collect: permutation of findings, sorted, stable, independent of history, other errors in the sink kept. In raise mode the model computes the rest of the run and ignores it."
],
"C27": [
"partial",
"Proved whenever no reference's ASCII characters run directly into a letter or digit outside ASCII (exactly the places the code looks at); outside that the claim is false and refuted by witnesses, including an uncaught ValueError."
],
"C28": [
"partial",
"Forest (parent/child agreement, no duplicates, no cycles) proved after every history of calls; exact effect of append/insert/replace/remove, exceptions change nothing, termination. Downward acyclicity through template contents proved when no template_content object is passed to an insertion method, refuted otherwise (C28_template_content_cycle_refuted)."
],
"C29": [
"partial",
"Deep clone: terminates, same tree, fresh nodes and dicts, originals untouched, on every history that never re-inserts a template_content object (refuted otherwise). Shallow clone with override_attrs exact. Deep clones ignore override_attrs (refuted theorem)."
],
"C30": [
"partial",
"Grammar-based text semantics (parser proved against it); sound for every selector without combinators inside :not() whose left parts are anchored; the exceptions are refuted with witnesses."
],
"C31": [
"partial",
"Exact for selectors where the nearest candidate suffices (nearest_ok), for query() also descendants_apart; greedy ancestor choice and the ancestor cache are refuted with witnesses (both are defects of the code)."
],
"C32": [
"proved",
"Arithmetic for all integers, the An+B notation, and end to end from the selector text."
],
"C33": [
"proved",
"Order, no duplicates, termination for every selector; tag fast path exact and equal to the general matcher; 'exactly the matches' for other selectors is C30/C31."
],
"C34": [
"proved",
"decode_html/sniff_html_encoding and the prescan modelled byte by byte; the decoders themselves (bytes.decode) are Python's. C34_meta_found covers the usual spellings of the tag after text and comments; C34_meta_or_default is for all inputs."
],
"C35": [
"proved",
"Termination, the 65536-byte window and the 1024-byte text limit for all inputs."
],
"C36": [
"partial",
"Spans exact, ordered, disjoint, safe hrefs, boundary, known TLD or allowed IPv4, nothing lost by the overlap filter: all proved for the modelled candidate regex, and the span/href part for any candidate finder. 'Never raises' holds for texts whose digits are decimal; it is refuted in general (finding: 1.2.3.<superscript 2> raises ValueError)."
],
"C37": [
"partial",
"Proved on whole trees for every skip_tags containing 'a' (the default): terminates, only text nodes outside skipped elements change, text preserved. Refuted for skip_tags without 'a' (never terminates)."
],
"C38": [
"proved",
"Every history of append/insert/setitem/pop/remove/del (index and positive-step slice) over distinct nodes: same list and same exceptions as a plain list, and all twelve lookups equal the scan of that list. Four lookups assume the bottom element is not itself a match (true of the document root; Example C38_bottom shows the difference otherwise)."
],
"C39": [
"partial",
"The comment scanner gives the data and the end of the standard's comment states on every string, except three classes shown to be refuted by witnesses: a comment starting with !>, an odd run of at least three dashes before !>, and an unfinished comment ending with --!."
],
"C40": [
"partial",
"_parse_all_attrs and _skip_attrs against the attribute states of the standard's tokenizer: names, values, order, first-wins, self-closing flag and end, for start and end tags; unconditional for ASCII. Hypotheses only where the code differs (witnesses): cased non-ASCII letters in names (str.lower) and references followed by non-ASCII alphanumerics."
],
"C41": [
"partial",
"The one-pass parser equals parse-then-sanitize for closed tags with distinct names, none starting with =, and values without CR and NUL; each hypothesis is needed (five witnesses). Unconditionally, every attribute it gives has an allowed name and a value accepted by its URL rule, or is kept for parser state only. The URL rule and the invisible-character filter are parameters here (modelled in UrlModel / MiscModel)."
],
"C42": [
"partial",
"find_rawtext_end_tag and find_script_end_tag against the standard's RAWTEXT, RCDATA and script data states: the text is always the standard's (script: when the end tags inside an escaped script have plain tails), and the parser resumes where the standard does when the end tag has no quotation marks. Witnesses show both hypotheses are needed."
],
"C43": [
"partial",
"The scanner of stream.py (whole file): for every string it ends, its open-element bookkeeping never fails and the events cover the html piece by piece in order (C43_events, C43_ends; the only exception is the ValueError of C27). The specification determines every piece: tag names, attribute lists (first wins), comment ends, doctype identifiers, end-tag tails, raw-text ends, unfinished tags. C43_text, C43_no_empty_text, C43_attribute_names. Partial: foreign content after an svg/math tag and script text containing <!-- are left open by the specification."
],
"C44": [
"partial",
"Tokenizer half: parse_doctype agrees with an independent WHATWG DOCTYPE tokenizer whenever that one does not set force-quirks, and never sets the flag wrongly; mode half: the quirks / limited-quirks tables agree from source text to mode. Refuted (with witnesses): one missing public-id prefix, empty system identifier treated as missing, force-quirks lost after PUBLIC/SYSTEM, srcdoc documents with the flag."
],
"C45": [
"partial",
"Text nodes: displayed as their words, no <, no & outside &lt;/&amp;. Code spans: closed by their own fence and the content comes back, except for a text that is one line break (refuted: it yields two backticks and exposes later code as HTML). pre: one fenced block, except with a CR inside a blockquote (refuted). Whole documents without img/table/pre follow an inline grammar. Refuted too: block starts (##, -), reference definitions, ! before a link."
],
"C46": [
"partial",
"Shape of every destination; <...> destinations end where written and percent-decode to the URL; bare ones end where written and are the URL if they hold no backslash and no control character. Refuted: trailing backslash, form feed, character references (a javascript: URL the default policy keeps)."
],
"C47": [
"partial",
"Function level complete (exactly the listed code points are deleted, for every string). Sanitized trees: no listed code point in any text or attribute value, fully for the built-in policies; custom policies need idempotent URL/CSS rules and no escape mode (refuted there)."
],
"C48": [
"proved",
"Bounded by max_errors, permutation of the first max_errors reported, sorted by position, stable; positions below 10^9 (the sort key for a missing position)."
],
"C49": [
"partial",
"Matcher terminates and is sound for all inputs, complete for names without a literal star (refuted otherwise); DropAttrs removes exactly the matching attributes for lower-case, non-blank, star-free names; default patterns exact for every name."
],
"C50": [
"partial",
"CollapseWhitespace and formatting normalisation fully; pretty-printer collapse = words joined by one space for texts whose white space is HTML white space (refuted for U+00A0)."
],
"C51": [
"proved",
""
],
"C52": [
"proved",
"Exact line/column for every offset and text, strictly monotone, offsets past the end clamp."
],
"C53": [
"proved",
"Every history of operations on the list of active formatting elements (push with Noah's Ark, fast push, markers, clear, lazy retire, compaction, replacement by the adoption agency) keeps its live view equal to the plain list of the standard, at most three equal entries after the last marker, and the index agrees with a scan. Precondition of Replace (ok_op): the clone goes after the last marker and after its equals; where the adoption agency puts the bookmark is not part of C53. Entry nodes and the DOM are not modelled."
],
"C54": [
"proved",
"Markup equality for all expressible trees; text equality additionally needs that no iframe/noembed/noframes/xmp mentions its own end tag (C55_rawtext_refuted shows this is necessary). Documents only as root."
],
"C55": [
"partial",
"Proved for elements holding one text. Refuted in general by kernel-checked witnesses: words joined, one word split, no-break space dropped, raw text changed."
],
"C56": [
"proved",
"All trees, separators and flags. C56_br_content_refuted: separator_blocks_only drops text inside a br element (only the DOM API can build one). C56_same_as_html assumes trees HTML syntax can express, as C09."
],
"C57": [
"partial",
"Totality, exact effect of every single transform (any selectors and callbacks looking at a node's name and attributes) and batching when only the first transform of a batch hoists are proved; the unrestricted batching claim, Unwrap on directly nested matches, SetAttrs with None and the fused Decide/EditAttrs chains are refuted by kernel-checked witnesses. Selectors that look at ancestors or siblings are outside the local_t hypothesis."
],
"C58": [
"partial",
"Shape, words, single spacing and leading edges are proved for all trees and options; trailing trimming and idempotence with trim_blocks=True are refuted by a witness (idempotence proved for trim_blocks=False)."
],
"C59": [
"partial",
"Everything proved for all trees and selectors; exactness needs selectors that do not match the doctype - PruneEmpty('*') removes it (refuted)."
],
"C60": [
"proved",
"Trees of numbered nodes with children lists and parent links; both strategies of the unwrapping pass, the dropping pass and the removal of the fragment context, for all forests and all sets of recorded nodes. That every disallowed node is recorded while the tree is built is not part of the model."
],
"C61": [
"partial",
"Termination, budget, untouched originals and one select element: proved for all trees. Whole document and recording of the copies: proved if no select is inside a select; refuted otherwise (C61_recorded_refuted: a javascript: link survives the default sanitizer)."
],
"C62": [
"partial",
"Proved: same tree operations, stack, and (unless eight rounds are used up) list as the standard, for HTML elements, when the element is listed and not in the step-2 situation; identical below eight special elements; current node of the name with nothing listed. Refuted by witnesses: bookmark after eight rounds, any other end tag, unlisted current node, foreign scope boundaries."
],
"C63": [
"partial",
"Equivalence, totality, unique reading, serializability and read-back proved for all arguments. Partial: an attribute name that ends in a newline is accepted although HTML cannot carry it (C63_newline_refuted); children that already have a parent are covered by DomModel (C28), not here."
],
"C64": [
"partial",
"Reconstruction itself is proved for every state (C64_reconstruct) and the lazy flag for every history in which: text directly in a caption finds nothing to reopen, a template ends with nothing to reopen, and the adoption agency leaves the list in stack order. Each of the three restrictions is shown necessary by a _refuted theorem. Which start tags reconstruct is a parameter, the same on both sides."
],
"C65": [
"partial",
"Proved for all histories without the case tame excludes (an a start tag which, after an earlier a was closed, would be made a foreign element), in particular for all input without svg and math start tags; without that condition the property is false (C65_link_refuted: a javascript: link survives the default sanitizer). Not modelled: which elements are closed when (the stack may be set to any list)."
],
"C66": [
"partial",
"Equality with the standard for every history of ordinary tags and changes of formatting, except in the cases ok_start and ok_end leave out, each of which a refuted theorem shows to be a deviation; invariants of the stacks reached; the deep search equals the plain one on every stack. Left out: tables, select, forms, templates, head and raw text elements, fragments; positions."
],
"C67": [
"partial",
"Equality with the standard (open elements, elements made and their places, formatting list, insertion mode) for every history of the ten tags with arbitrary ordinary content between, except the cases ok_tag / ok_marks leave out, each shown to be a deviation by a refuted theorem; C67_parents (nesting of what is made) holds on every stack with a table open. Left out: foster parented text and elements, templates, select, frameset, fragments, positions."
],
"C68": [
"partial",
"Proved for all tags but col and colgroup on every stack with a table open, and for all histories of C67; false in general (C68_order_refuted: SVG elements named tbody and thead in an integration point)."
],
"C69": [
"partial",
"Equality with the standard (tree, open elements) for every history of text runs, start tags, comments, closings and reopenings, except the cuts of text ok_run leaves out, each shown to be a deviation by a refuted theorem; conservation of text and uniqueness of places hold for every history at all. Documents, raw mode; which elements close is C66/C67; moves by the adoption agency are C62."
],
"C70": [
"partial",
"Newlines, NUL, decoding order, invisible code points, pointwise coercion, surrogate pairs: for every input. Refuted and therefore partial: comments with --- or a final hyphen, and text with C0 controls or lone surrogates, are not legal XML after coercion."
],
"C71": [
"proved",
"Exact relation in both directions and the full round trip, for every content and every flag of the later parse."
],
"C72": [
"partial",
"The trace of hooks and operations is exactly the documented one for every list, policy and flag (C72_runs_what_was_asked), likewise TypeError, the fused engine, the appended Sanitize, source text for escaping, parse limits. Refuted: a disabled Sanitize switches sanitizing off; an Edit in the walk of the final Sanitize can put unsafe content behind it; HardenRawtext changes the limits of matching; chained EditAttrs. Node functions, callbacks and reports are opaque numbers; what they do to nodes is in C22-C24, C36, C57-C59."
],
"C73": [
"partial",
"All attribute names as in the standard, values, places and distinctness kept, for names without U+212A (which the source must spell out); all element names but fedropshadow; round trip. Refuted: U+212A counts as k; feDropShadow is missing from the table."
],
"C74": [
"partial",
"Proved for all inputs: where the drop stops, when everything is dropped, termination. The main statement holds for content without greater-than signs in attribute values, less-than signs in comments, elements of special_names and self-closing tags with the name of the root; without those restrictions it is refuted by witnesses."
],
"C75": [
"partial",
"Proved for the two default policies (the only ones compiled): same attributes and values as the tree sanitizer, on the attribute list and, with C41's conditions, in one pass over the source; unconditional safety of what is kept; tables allow exactly the policy's tags; the flags of the tables name exactly the standard's elements. Missing: URLs with a backslash, or beginning with two slashes and containing a space, where the two differ (refuted with witnesses)."
],
"C76": [
"partial",
"Proved against the full parser (every end tag on every stack; every allowed start tag on every reached stack) and the standard (histories). Missing: rb, rp, rt, rtc, for which the engine lacks the rule (refuted with a witness); what C66 leaves out; reconstruction of formatting elements is outside the model."
],
"C77": [
"partial",
"Proved: exactly which bodies may be replaced, over any tree and any history of tags; what the standard keeps is kept where foreign content holds no HTML elements, no U+FFFD and inputs are empty. Missing: the engine keeps bodies the standard replaces (span, comments), and replaces one with an HTML element inside foreign content (refuted with witnesses); fragments with context html."
]
}