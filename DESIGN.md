# Formal model of go-vtd-xml: design

Source: /repo (Go, read as text). Prover: Coq 8.16.1, standard library only.

## 1. What is modelled

| Coq file | Go code |
|---|---|
| `GoBase.v` | Go integers (wrap-around), slices, errors (`vtdxml/erroring`), panics |
| `XmlChar.v` | `vtdxml/common/xml_char.go` |
| `Buffer.v` | `vtdxml/buffer/*.go` (long, int, object and byte buffer) |
| `Reader.v` | `vtdxml/reader/*.go` (UTF-8 and ASCII reader) |
| `ParserState.v` | the `VtdParser` struct (`vtdxml/parser/vtd_parser.go`) and the state/error/panic monad |
| `ParserPrim.v` | `vtdxml/parser/common.go`, `process.go` |
| `ParserProc.v` | `vtdxml/parser/process_*.go`, one definition per Go function |
| `ParserMain.v` | `vtd_parser.go`, `init.go`, `parse.go`, `get_nav.go`, `clear.go` |
| `Output.v` | the lines printed by `parse.go`, its assignment to `erroring.EOFErrorType`, `Error()`, `Unwrap()` and `LineNumber` of `erroring.go` |
| `Nav.v` | `vtdxml/navigation/*.go` |
| `Misc.v` | `vtdxml/common/int_hash.go`, `vtdxml/modifier`, `vtdxml/pilot` |

Every definition cites the file and lines it models and states its
simplifications.

How Go is rendered:

* `int`, `int32`, `int64`, `uint32` are `Z`. Wrap-around is written explicitly at
  conversions, shifts, `uint32` arithmetic of character references, and at the
  `offset+length` sums of the constructors. Counters and offsets of the parser are
  unbounded; they are bounded by the document length, which Parse limits to
  less than 2^31.
* A slice is a list with a bounds-checked lookup. An index out of range is a
  `Panic` value that names the site.
* `(T, error)` is `Ok v | Err e`; parser methods are functions
  `state -> ROk v s | RErr e s | RPanic w | RDiverge`, so the state left behind by
  a failing call is kept.
* `for` loops are recursive on explicit fuel. Running out of fuel is the separate
  value `RDiverge`; the termination theorems show that it never occurs (or, for
  the namespace code, that it does occur and is a real endless loop).
* nil is `None`.

Not modelled: write-only fields, memory exhaustion,
concurrent use of one value from several goroutines, nil buffer interfaces given
to `NewVtdNav`, package `expresion` (an empty interface declaration).

## 2. Trusted base

* The Coq kernel (and `vm_compute`, used for concrete witnesses and examples).
* `Print Assumptions` under every property theorem (files `Properties*.v`): see
  section 5 for the list. No axiom is declared in this development.
* The reading of the Go source by which the definitions were written. The code is
  not run here. The extracted model was compared by hand with the expectations in
  the repository's own tests (`parser/testdata`, `navigation/*_test.go`): all
  valid golden files are accepted and all invalid ones rejected with the expected
  message.

## 3. Specifications

The properties are stated against small specifications that do not use the
model's helpers: lists of values for buffers (`SpecBuffer.v`), code-point ranges
copied from the XML recommendation (`SpecChar.v`), arithmetic bit fields for
tokens (`SpecToken.v`), token sequences for navigation (`SpecNav.v`), and for the
parser a grammar of documents with a rendering function and a token function
(`SpecDoc.v`), a grammar of trees (`SpecNested.v`) and the content of a tree in
document order (`SpecContent.v`).

Several properties a user would expect are false of this code. For these the
expected statement stays in `properties.jsonl`; the development proves a
`..._refuted` theorem with a concrete witness and, beside it, the exact behaviour
(`..._exact`) or the part that does hold (`..._partial`).

## 4. Properties and how they are proved

| Id | Modelled by | Method / expected outcome |
|---|---|---|
| C01 | `Buffer.v` | refinement to a list, induction over the appends |
| C02 | `Buffer.v` | refuted beyond the first page; exact result of every read |
| C03 | `Buffer.v` | refuted; exact set of panicking indices |
| C04 | `Buffer.v` | frame theorem |
| C05 | `Buffer.v` | refuted for non-empty buffers; exact behaviour (every Append fails) |
| C06 | `Buffer.v` | refuted (negative panics, 63 accepted); exact acceptance |
| C07 | `Buffer.v` | refuted; exact size and reads |
| C08 | `Buffer.v` | lower half proved; upper half refuted (28 bits), exact value |
| C09 | `Buffer.v` | ByteAt proved; GetByteSlice refuted, exact result |
| C10 | `XmlChar.v` | equality of range tables with the recommendation; slice lookup = range lookup |
| C11 | `XmlChar.v` | refuted (control characters); exact difference |
| C12 | `Reader.v` | induction over the calls |
| C13 | `Reader.v` | SkipChar exact; refuted at window end and for partial matches; exact consumption |
| C14 | `Reader.v` | UTF-8 proved; ASCII refuted at endOffset = len |
| C15 | `ParserPrim.v`, `Nav.v` | bit-field lemmas; offsets from 2^30 on are truncated (refuted), exact |
| C16 | same | attributes proved; prefixed start tags refuted, exact value |
| C17 | `Nav.v` | proved for non-empty tokens; refuted for empty ones; exact sum |
| C18 | `Nav.v` | exact byte function; refuted for CR LF and a final CR |
| C19 | `Nav.v` | refuted: ToString = ToRawString on every range |
| C20 | `Nav.v` | exact error condition |
| C21 | `Nav.v` | direct |
| C22-C24 | `Nav.v` | induction over the scan; C23 refuted: never succeeds |
| C25 | `Nav.v` | refuted for level 1 and 2; proved elsewhere |
| C26-C27 | `Nav.v` | direct; level 3 and siblings at levels 2, 3 refuted |
| C28 | `Nav.v` | cursor part proved; error type refuted |
| C29 | `ParserMain.v` | exact acceptance; negative length refuted |
| C30 | parser | measure: reader offset; no `RDiverge` |
| C31 | parser | refuted: endless loop for every amount of fuel; proved when every `&#` has a `;` within nine bytes |
| C32 | parser, every mode | refuted, one witness per site (one of them a well-formed namespace document); proof that only the listed sites can panic, and that no paged table is used through a page it does not have (invariant on the three namespace tables) |
| C33, C35-C38, C44-C46 | parser | soundness: an accepted document is a rendering of a grammar item list, tokens equal the token function |
| C34, C40, C43 | parser | completeness: every rendering is accepted |
| C39 | parser | refuted: offsets restart at 0; exact tokens |
| C41, C42 | parser | refuted: always rejected |
| C47 | parser | refuted (peek past the window); proved when the window ends the buffer |
| C48 | parser | refuted: panics; general statement for accepted documents |
| C49 | parser | invariant over all error exits |
| C50 | parser | refuted: always nil |
| C51-C53 | parser | invariant over start tags, in every mode: only `writeStartTag` writes start-tag tokens and touches the tables (`ParserLog.v`, one lemma per function), and the depth moves as in a tree (`ParserTree.v`, `PropertiesCache.v`); C52 refuted: tables stay empty |
| C54-C56 | parser | simulation against the namespace-unaware run; refutations |
| C57 | parser | invariant `room` of every step of the state machine (ParserInv*.v, ParserCount.v): a state's reading position pays for the tokens written |
| C58 | parser + nav | corollary of C35, C15, C02 |
| C59-C61 | `Misc.v` | direct |
| C62-C68 | `Buffer.v` | exact counterparts of C02-C09: refinement to a list of values |
| C69 | `XmlChar.v` | case split over the ranges |
| C70, C71, C83 | `Reader.v` | induction over the sequence; direct |
| C72-C77, C82 | `Nav.v` | bit-field lemmas; exact byte function |
| C78-C81 | `Nav.v` | induction over the scan; cursor invariant |
| C84, C85 | parser | each processing function has one lemma for what it does on a given input and one for what the input was if it succeeded (`DocScan.v` to `DocMain.v`); windows inside a larger buffer: simulation up to the end of the root, then the same two lemmas for the epilog (`SpecWindow.v`, `DocEpilog.v`, `DocWindow.v`, `DocShow.v`) |
| C86-C88 | parser | grammar of mistakes after any beginning of a document (`SpecDoc.v`, `DocErr.v`) |
| C89 | parser | instance of C85 with the token function for long text |
| C90 | parser | simulation of two runs that differ in the bytes behind the window (`RelWindow.v`) |
| C91 | parser | induction over the document: every token against its piece (`SpecPart.v`, `PartProofs.v`) |
| C92 | parser | corollary of C84 and C85: the spec looks at one byte behind the window |
| C93, C94 | parser | the namespace buffers represent a scope (`SpecScope.v`, `NsBase.v`); each start tag changes it as described or is refused (`NsUrl.v` to `NsStart.v`); induction over the document (`NsBody.v`); C94 is a statement about the description (`ScopeProofs.v`) |
| C95, C96 | parser | success means the reader is at the end of the window (`ParserAgain.v`, over the invariant of C30); no step of a further call moves it, so its first read fails |
| C97 | parser, buffers | no function of the parser changes a page exponent (`ParserFrame.v`, one lemma per function), so the table of init.go decides what C62 allows to be read |
| C98, C99 | parser, navigator | the tables of C51 seen through C97 are followed by the cached moves of the navigator (`NavParsed.v`, by induction on the number of moves) |
| C100-C105 | parser, errors | the main loop with its effects returns what the loop without them returns (`Output.v`, `PropertiesOutput.v`); induction over the loop, invariant of C30 for the kinds of error |
| C106 | parser | what is accepted with namespace awareness is of the grammar (C84) and so accepted without it, which C86 excludes (`PropertiesReject.v`); limit shown necessary by a witness |
| C107 | parser | the state each processing function returns (`ParserLog.v`, `ParserTree.v`) against a table (`SpecOutput.v`); induction over the loop |
| C108 | `Nav.v`, `Buffer.v` | the scan over all tokens equals the scan over the first page (`PropertiesNavPages.v`); induction over the scan |
| C109 | parser | refuted; the compared characters are never plain (`ParserReserved.v`), so neither message is ever returned |
| C110 | `Nav.v`, parser | exact outcome of LastChild at level 1 from the entries of the parser (`PropertiesLast.v`): upper bound read from the next entry; `reach` states it over the list of start tags |
| C111 | `Nav.v`, parser | exact outcome of sibling moves at level 2 (`PropertiesSecond.v`): cursor invariant `at2`, induction over the number of moves; `further` counts the successes over the list of start tags |
| C112 | `Nav.v`, parser | exact outcome of child moves at level 2 (`PropertiesSecond.v`): the value comes from the second table, and no entry of the parser has the mark the navigator looks for |
| C113 | `Nav.v`, `Buffer.v`, parser | first table of more than one page (`PropertiesWide.v`): cursor invariant `on1`, induction over the number of moves |
| C114 | parser, `SpecDoc.v` | induction over the grammar: the tokens of each part lie inside the part and in order (`PropertiesOrder.v`); refuted for long text |
| C115 | parser, location cache, cursor moves and string reading together | names of a level defined on the grammar (`names_of_level`), induction relating them to the tokens of that level, then C98's walk and C58's reading over one document (`PropertiesNames.v`); refuted for prefixed names |
| C116 | parser, `GetTokenLength`, string reading | induction over the grammar: length field of every start tag below the root; composed with C72/C73/C18 (`PropertiesPrefix.v`) |
| C117 | parser, `SpecDoc.v`, `SpecNested.v` (trees) | equivalence of the flat grammar with a tree grammar: strong induction on the number of markups one way, structural induction on trees the other (`PropertiesNested.v`) |
| C118 | C117 with C115 | names of a level of a tree are those of the flat document; then the walk of C115 over the document made from the tree |
| C119 | tokens of the tree grammar against SpecContent.v | the tokens of the flat document zipped with their bytes are the pieces of the tree (induction over trees with the stack of open names); each piece read as in C58 and C82 |
| C120 | all of `ToElement` and all readers | frame lemma for every move by its control flow, induction for the loops; readers depend only on the framed fields |
| C121 | C117, C119 with C99 and C120 | the start tags of the token sequence are the elements of the tree in document order with their depths (induction over trees); counts of a level before a child by the same induction |
| C122 | tokens of `SpecDoc.v` with their bytes (`SpecPart.v`) | compositional interval invariant over the grammar (attributes, markups, gaps, declaration, epilog), then C119 and the offset field |
| C123 | buffer reads, token readers and moves of `Nav.v` over the tables of a parse | reads below the size stay inside the allocated pages; invariant `sound` (every cursor entry below the number of tokens) kept by every move, established by the location cache theorem |
| C124 | moves of `Nav.v` over the tables of a parse, panics included | invariant `fit` (cursor inside the context, first-table position inside the table) kept by every move; each partial operation shown inside its bounds except the reads of the second table, where a witness panics |
| C125 | `resolveEntity` of `Nav.v`, called on its own | comparison with the bytes at the position; induction over the hexadecimal digits; the decimal loop shown to run out of every fuel |
| C126 | moves of `Nav.v`, any navigator | effect of a successful child move on each field (`below`), Parent leads to a navigator that agrees on the level (`peer`), sibling moves keep two such navigators together |
| C127 | tokens of accepted documents read through `Nav.v`; `SpecOutline.v` gives what a tree says without its layout | the pieces of C119 are a flattening of the outline with depths, and the flattening is injective (induction on the size of the outline, with what may follow the content of an element); with C119 both directions follow, up to CR being read as LF; REFUTED for prefixed element names (`C127_prefix_refuted`) |

The final status of each property is in `MANIFEST.json`.

## 5. Assumptions

Every theorem of the files `Properties*.v` is followed by `Print Assumptions`; all
of them answer "Closed under the global context". Library axioms named by `coqchk`
(`Coq.ssr.ssrunder.*`) come with the standard library files that are loaded and
are not used by any theorem here.

## 6. Files beside the model

* `Spec*.v`: specifications; `SpecDoc.v` (grammar, tokens, mistakes), `SpecPart.v`
  (the bytes of each token), `SpecLoc.v` (location tables), `SpecNs.v`
  (namespaces), `SpecScope.v` (namespace scopes as the parser keeps them),
  `SpecWindow.v` (documents in a window of a larger buffer), `SpecParse.v` (options).
* `*Proofs.v`, `ParserWp.v`, `ParserInv*.v`, `ParserOutcome.v`: invariants of single
  functions and of the main loop.
* `Doc*.v`: the parser against the grammar; `Ns*.v`: the same with namespace awareness.
* `ParserRel*.v`, `Rel*.v`: pairs of runs (cache depth, namespace awareness, window).
* `Properties*.v`: the property theorems and their concrete cases.
* `seeded/LOG.jsonl`: wrong programs tried against the theorems.
