# Formal model of justhtml in Rocq (Coq 8.16.1)

Generated by tools/mkdesign.py. The first part is the original plan; the section 'Per property' says what was
modelled, how it was proved and under which theorem names.

## Approach

* Python `str` is `list N` (code points, lone surrogates included); `bytes` is `list N` with values < 256.
* Every modelled Python function becomes one total Gallina function of the same shape, in a file `*Model.v`,
  each with a comment citing the file and lines in /repo. Exceptions are values (`option`/`result`), loops are
  structural recursion or carry fuel with a distinct "out of fuel" value which a theorem rules out.
* Specifications (HTML tokenizer states, browser URL scheme extraction, CSS matching, ...) are written
  independently of the model in `*Spec.v` files, from the WHATWG/CSS standards.
* Proofs live in `*Proofs.v`; the property theorems are in `Properties*.v`, each closed by `exact lemma` with
  `Print Assumptions` under it and non-vacuity `Example`s beside it.
* When the full statement is false of the faithful model we prove `..._refuted` with a concrete witness and
  the strongest true variant as `..._partial`.

## Plan per property (see properties.jsonl)

* C01-C09 serializer: model of escaping and of the compact serializer; spec = WHATWG tokenizer state machine
  (data, RCDATA, RAWTEXT, script data incl. escaped states, tags, attributes, comments, character references);
  round trips by induction on the string/tree.
* C10, C11: JS literal evaluator spec; percent-decoder spec.
* C12-C20 URL cleaning: full model of url/runtime.py; spec = browser preprocessing + scheme/authority extraction.
* C21 CSS: model of css.py; spec predicate over declarations.
* C22-C26 sanitizer pipeline: tree model of the compiled sanitizer walk; spec predicates over result trees.
* C27 entities: model + WHATWG character reference spec over the same entity table.
* C28, C29 DOM: heap model (node id -> record), invariant over all operation sequences.
* C30-C33 selectors: tree + zipper model; declarative CSS semantics.
* C34, C35 encoding: byte-level model of sniffing.
* C36, C37 linkify: candidate regex abstracted as an arbitrary ordered span list; everything after it modelled.
* C38, C53 open-element stack / formatting list: state machines over operation histories.
* C39-C42 tokenizer-level scanners of the parser versus the spec state machines.
* C43 stream scanner. C44 quirks table. C45, C46 Markdown. C47-C52 as named.
