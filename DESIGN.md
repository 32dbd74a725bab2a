# A formal model of simonask/libyaml-safer in Rocq (Coq 8.16.1)

The model is `rocq/theories/`.  Model files contain definitions only and follow the source
function by function; proof files (`*Facts.v`, `P_*.v`) contain lemmas; property files
(`Prop_*.v`) contain the theorems listed in MANIFEST.json, each followed by
`Print Assumptions`, together with non-vacuity examples.

## What is modelled

| model file | source | contents |
|---|---|---|
| Base.v | lib.rs, error.rs (data), token.rs, event.rs | data types; the outcome type `res` = `Ok`/`Err`/`Panic`/`Fuel`; the state monad |
| Chars.v | macros.rs | character classes |
| Utf.v | (std) | UTF-8/UTF-16 codecs of the Rust standard library used by the crate |
| State.v | scanner.rs 16-113 | scanner state, input stream, new/reset/set_input |
| Reader.v | reader.rs | BOM detection, UTF-8/UTF-16 decoding, buffer filling; std `BufRead`/`read_exact` |
| Scanner.v | scanner.rs | the whole scanner: every fetch_/scan_ function, scan, peek, skip, next |
| Parser.v | parser.rs | the whole parser state machine, directives, tags, parse, next, reset |
| EState.v, Emitter.v | emitter.rs | the whole emitter: analysis, style selection, writers, states, flush |
| Tools.v | src/bin | the programs run-parser-test-suite and run-emitter-test-suite |
| Errors.v | error.rs | kind, marks, context, conversion to std::io::Error, Display |
| Document.v | document.rs, loader part of parser/lib | documents: building API, load, dump |
| Api.v | – | sessions: repeated calls of public methods |
| Conformance.v | tests of the crate | the crate's own unit tests evaluated on the model (a check of the model, not a proof of anything) |

| specification | theorems | supporting proofs |
|---|---|---|
| Spec_Reader.v | Prop_Reader.v | Utf8Facts, ReaderFacts, ReadFacts, IoFacts |
| Spec_Scanner.v, Spec_Tokens.v | Prop_Scanner.v | Wp, ScanFacts, FetchFacts, FetchWp, FetchLoop, FlowFacts, TokFacts, SessionFacts |
| Spec_Events.v, Spec_Parser.v | Prop_Parser.v | EventFacts, ParserFacts, ParserWalk*, ParserSession |
| Spec_Document.v | Prop_Document.v, Prop_Basics.v | DocFacts, LoadFacts, LoadAlias, LoadSession, NumberFacts |
| Spec_Emitter.v, Spec_EmitNames.v | Prop_Emitter.v, Prop_EmitGrammar.v | EmitText, EmitRuns, EmitIo, EmitChars, EmitSession, EmitGrammar, Utf16Facts |
| Spec_Styles.v | Prop_Styles.v | StyleFacts |
| Spec_Dump.v | Prop_Dump.v | DumpAnchors, DumpFacts, DumpAll, DumpTree |
| Spec_Reader.v (input_text) | Prop_Chunk.v | Chunk, ChunkScan, ChunkParse |
| Spec_Reader.v (input_text16) | Prop_Utf16.v | ReadUtf16 |
| Spec_RoundTrip.v | Prop_RoundTrip.v | RoundScan, RoundCarry, RoundPlain, RoundLiteral, EmitScalar, EmitQuoted, EmitSingle, EmitPlain, EmitLiteral, EmitFolded |
| Spec_Canonical.v | Prop_Canonical.v | CanonLex, CanonBody, CanonItems, CanonEmit, CanonToks, CanonStep, CanonRun, CanonParse, CanonRead |
| Spec_Layout.v, Spec_Kept.v, Spec_Folded.v | Prop_Layout.v, Prop_Kept.v, Prop_Reformat.v | LayItems, LayLex, LayScan, LayEmit, LayNode, LayKeys, LayDoc, LayWrite, LayRun, LayStep, LayToks, LayParse, LayRead, LaySave |
| Spec_Resave.v | Prop_Resave.v | LoadedWalk |
| Spec_Save.v | Prop_Save.v | SaveFacts, SaveLoad, SaveRun |
| Spec_Lexical.v (a lexical grammar of YAML as this crate reads it) | Prop_Lexical.v | LexBase, LexScan, LexNames, LexQuoted, LexPlain, LexBlock, LexFetch, LexQueue, LexNext |
| Spec_Parser, Spec_Canonical, Spec_Lexical (as above) | Prop_Copy.v | - |
| Tools.v (src/bin/run-parser-test-suite.rs, src/bin/run-emitter-test-suite.rs), Spec_Notation.v | Prop_Tools.v | NotationFacts, NotationLine, ToolRun |
| – (explicit statements) | Prop_Errors.v | Kinds |
| Spec_Reader.v (utf8_of, utf8_text) | Prop_Located.v | Located, LocatedWalk |
| – | Prop_Findings.v | counter-examples: defects of the code, shown on concrete inputs |

Conventions and simplifications (also in the comments of each definition)

* A `char` is its code point (`N`), a `String` the list of its chars, a byte an `N`.
* `&mut self` methods are functions `state -> outcome * state`; the state is kept after errors
  because a user can go on calling.  Every panic site (`unwrap`, `expect`, `panic!`,
  `unreachable!`, assertions, checked arithmetic that matters) is an explicit `Panic` outcome
  with its own constructor.
* Loops run on an internal fuel computed from the state (input not yet consumed).  Running out of
  fuel is the separate outcome `Fuel`; the termination theorems prove it is never produced, so
  fuel is not an assumption of any theorem.
* The input is any value of `source`: the bytes currently buffered and the list of outcomes of all
  future reads (bytes in arbitrary chunks, Interrupted, other errors).  The output handler is any
  `writer`: the list of outcomes (accept / fail) of its future writes.
* i32/u32/u64/usize are unbounded, except where the source checks for overflow (flow level,
  indentation, input offset).  Exact for inputs of fewer than 2^31 characters.
* Memory allocation failure, Drop, performance and thread interleavings are not modelled
  (the crate has no threads and no unsafe code).
* std's `from_utf8`, `decode_utf16`, `char::len_utf8`, `char::from_u32`, `read_exact`, `fill_buf`
  are modelled by their documented behaviour (Utf.v, top of Reader.v): trusted.

## Trusted base

* The Coq 8.16.1 kernel (including its `vm_compute` conversion).
* The model's faithfulness: definitions were transcribed by reading; line ranges are cited beside
  every definition; the crate's own tests are evaluated on the model in Conformance.v.
* Axioms: none of our own.  `Print Assumptions` of each property theorem is printed by the build;
  expected answer: "Closed under the global context".

## Properties: how each is modelled and proved

| id | approach |
|---|---|
| C01 | Reader.v.  Invariant over `update_buffer`: buffer ++ decode(rest of the stream) is constant; induction over the chunk schedule using encode/decode lemmas for UTF-8. |
| C02 | Chunk.v: judgement `Sim E k m q`: two states that differ only in the reader's part, deliver the same text and have `k` characters at hand give the same result under `m`; one lemma per scanner, parser and loader function (it fails if a function looks further than it asked the reader for). |
| C03 | Invariant "every buffered char is allowed" over every reader function, any source. |
| C04 | Weakest-precondition style proof of every scanner function: termination (fuel never exhausted, measure = unread input), panic sites excluded by a state invariant that also holds after errors. |
| C05 | Invariant on stream_start_produced / queue / stream_end_produced. |
| C06 | Invariant: queue sorted by marks; pending simple keys point between tokens. |
| C07 | Invariant: depth of indentation stack = opened - closed over delivered and queued tokens. |
| C08 | Postconditions of the scan_ functions, invariant over the queue. |
| C09 | Reader.v: failing read event => the call returns exactly EIo of it. |
| C10 | Separate grammar of event streams; parser invariant: the state stack describes an automaton accepting exactly the rest. |
| C11 | Same stack invariant + scanner invariant. |
| C12 | Potential function: tokens still obtainable bounds events. |
| C13, C14, C15 | Postconditions on parse_document_start / parse_node; session invariants. |
| C16 | Direct from parse/next on ended states; invariant that STREAM-END implies ended. |
| C17 | Equality of states after reset. |
| C18, C19, C20 | Loader invariants; load as a function of the event list against an independent tree specification. |
| C21, C22 | Direct functional specification of the building API. C22 is false for 0 in debug builds (refuted). |
| C23, C24 | Spec_Dump.v: walks through the node table, their events, values. dump simulates sending the events of the walk; the events of a tree are numbered back by the loader's specification. |
| C25 | Emitter stack automaton refined to the event grammar. |
| C26 | Invariant: handler bytes ++ encode(buffer) = encode(all text). |
| C27 | Writer plan: a failing write surfaces as Err(Io). |
| C28 | Direct arithmetic on emit_stream_start. |
| C29 | Direct from the analyze_ functions, with nothing written. |
| C30-C33 | Writer/scanner round-trip by induction on the string, with width breaks and indentation.  The text written is described by a list of pieces (RoundScan.v: characters, escapes, spaces, breaks); the writer writes such a list (EmitQuoted.v, EmitSingle.v, EmitPlain.v; EmitLiteral.v for literal scalars, whose lines RoundLiteral.v reads), the scanner with everything in its buffer reads it (RoundScan.v), and C02's `Sim` carries that to every chunking (RoundCarry.v). |
| C34 | False (refuted by a witness). The part that holds is exactly C51's condition. |
| C35 | Case analysis on select_scalar_style against the analysis. |
| C36 | Invariant on the characters put in the buffer. |
| C37 | encode/decode lemmas and C26's invariant. |
| C38 | False (refuted by a witness, and for every non-empty input given in one read: a read takes all the characters of a chunk but only half of its bytes, and the last byte left over cannot be read). The part that holds: reads of one byte each, where characters are read unbuffered (ReadUtf16.v: invariant on the bytes not consumed, as for UTF-8 in ReadFacts.v). |
| C39 | Positions never exceed the input read (invariant). |
| C41, C42 | By-products of the parser walk (C10-C15): marks of the consumed tokens; projections of the token groups. |
| C40 | The text of canonical output is a list of items (CanonItems.v: indicators, names, tags, quoted scalars, directives, blanks). The emitter writes such a list, with the tokens of its events (CanonEmit.v, CanonToks.v, CanonStep.v, CanonRun.v); the scanner delivers those tokens (CanonLex.v, CanonBody.v, CanonItems.v); the parser turns them into the events of Spec_Canonical.v (CanonParse.v); C02's simulation carries it to every chunking (CanonRead.v, Prop_Canonical.v). |
| C43 | The events of a dump (C22/C23, DumpOpen.v, SaveRun.v) are a stream C40 applies to; what is read back is numbered by the loader (C20_events_are_loaded, SaveLoad.v) in the order of the walk, which gives the isomorphism (Spec_Save.v: same_graph). |
| C44 | A lexical grammar (Spec_Lexical.v) written without reference to the scanner: texts of tokens, gaps, delimiters, marks.  Invariant (LexQueue.v, LexNext.v): delivered and queued tokens cover a prefix of the text, the reader stands after it and a gap; one partial-correctness lemma per scan_ function (LexNames, LexQuoted, LexPlain, LexBlock); KEY and BLOCK-MAPPING-START inserted later keep the cover because a pending simple key remembers the position before a queued token. |
| C45 | Composition: the token-to-event explanation (C15) turned into the emitter's validity conditions (names and handles well-formed because C17 says so of the tokens, flags from the explanation), the grammar (C10) and acceptance (C25). |
| C46 | C45's facts plus: values are strings of Unicode scalar values, by induction over the lexical grammar of C44; then the canonical round trip C40. |
| C47 | As C40, for the block and flow layouts: the text is a list of items that now also has plain and single-quoted scalars, block indicators and indentation (LayItems.v, LayLex.v); the scanner delivers their tokens, including the virtual ones (block starts and ends, simple keys), from a state with an indentation stack and pending keys (LayScan.v, LayToks.v); the parser makes of them events that tell the same (Spec_Layout.v: told; LayParse.v); the emitter writes such lists: keys that fit on a line (LayKeys.v), nodes, flow and block collections, documents (LayEmit.v, LayWrite.v, LayNode.v, LayStep.v, LayDoc.v, LayRun.v); C02's simulation carries it to every delivery (LayRead.v, Prop_Layout.v). Literal scalars are items of their own, with the lines of RoundLiteral.v; a `...` may follow one that ends the stream. Folded scalars too, as in C34_folded_round_trip_partial, for values that fold well whatever the width. |
| C48 | C43's argument over C47 in place of C40: the events of a dump are a stream C47 applies to (Prop_Kept.v), events that tell the same are numbered by the loader in the order of the walk (LaySave.v); Spec_Kept.v states what is kept. |
| C49 | C45's facts about parsed events and the values of C46, then C47 (Prop_Reformat.v). |
| C50 | What a document must satisfy to be saved (C43, C48) is shown of every loaded one from C08, C13-C15, C18, C20 and the values of C46, but for tags and sharing (Prop_Resave.v: loaded_storable); a walk through a loaded table meets the nodes in the order of their numbers (LoadedWalk.v, from the numbering of C20), so the isomorphism of C43/C48 between two loaded tables is the identity. |
| C51 | Spec_Folded.v says by positions of characters which strings are hit neither by the misplaced test for doubling a line break nor by the breaking of indented lines. The lines written are, for every string, the literal text of another one that the writer's loop determines (EmitFolded.v: folded_runs), with the same beginning and end (folded_facts), so the scanner reads some value from them (RoundLiteral.v: block_at_state, read_back). Where a junction of lines is written wrong, the value read differs there, whatever comes later: by induction the value read is the one written iff a computed test holds at every junction (reads_whole), and the test holds iff the specification does (good_spec). |
| C52 | Tools.v models the two programs (src/bin) line by line; Spec_Notation.v says which events can be read back. A line is followed through `split_once`, the search for the style character and the escapes (NotationFacts, NotationLine: both directions, so the condition is exact); the printed text is related to the calls of the parser by induction (ToolRun.v), and a line feed in a tag is seen by counting lines. |
| C53 | C52 gives the events the second program emits; they meet the conditions of C47 (from C10, C13-C15 and the values of C46), and its emitter, with no setting made, behaves as one of C47's after STREAM-START. |
| C54 | Recode.v: once STREAM-START has been produced, scanner, parser and loader look at the reader only through `cache` and the characters, so two states that differ in the reader alone and have the same text to come behave alike (the judgement of C02, without the encoding); the first call is computed on both sides. |
| C55 | WideLayout.v, WideCanonical.v: the text that C47 and C40 find in the UTF-8 output is, with the same calls, what any output encodes; C54 carries the events read from it over to UTF-16. Prop_WideSave.v does for C48 and C43 what they do with C47 and C40. |
| C56 | Errors.v models error.rs; Kinds.v goes through every function of the model with the judgement "in no state does it fail with another kind of error", a rule per construct and one lemma per function; display is shown injective in kind, line and column. |
| C57 | Located.v: one read of the reader, with the place of the error; LocatedWalk.v: the position of the reader (offset = bytes of the characters decoded so far) is kept by every function of the scanner, the parser and the loader, by one tactic as in C56; errors are passed on unchanged. |

## Findings: places where the code violates the natural property

See the `_refuted` theorems (Prop_Findings.v).
