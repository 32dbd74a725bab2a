{"id": "C01", "title": "UTF-8 input is decoded exactly, however it is chunked", "statement": "If the bytes delivered by the reader are the UTF-8 encoding of a text made of characters YAML allows (optionally after a UTF-8 BOM), then whatever the sizes of the chunks returned by BufRead and however many Interrupted errors occur between them (after the first read), the characters handed to the scanner are exactly that text, in order, and end of input is reported only after the last one.", "quantifier": "every text, every split of its encoding into chunks (also inside a character), every placement of interruptions, every amount of lookahead requested", "why_tests_cant": "chunk boundaries and interruption points are unbounded schedule choices; a test fixes one of them", "anchors": ["src/reader.rs: yaml_parser_update_buffer, read_utf8_buffered, read_utf8_char_unbuffered", "src/scanner.rs: Scanner::cache"]}
{"id": "C02", "title": "Tokens do not depend on how the input is chunked", "statement": "For error-free UTF-8 input the sequence of tokens returned by Scanner (and so the sequence of events returned by Parser), with all marks, is a function of the text alone: two readers that deliver the same text in different chunks give the same results call by call.", "quantifier": "every text, every pair of chunkings, every number of calls", "why_tests_cant": "needs a comparison of two executions for all schedules", "anchors": ["src/reader.rs", "src/scanner.rs: Scanner::scan", "src/parser.rs: Parser::parse"]}
{"id": "C03", "title": "Only characters allowed by YAML reach the scanner", "statement": "Every character the scanner ever sees is tab, LF, CR, NEL, or a printable Unicode scalar value; any other character of the input makes the call fail with a reader error, and bytes that are not valid UTF-8 are reported as such and never turned into characters.", "quantifier": "every byte stream, encoding, chunking and fault schedule; every call of any history", "why_tests_cant": "the space of byte streams is infinite", "anchors": ["src/reader.rs: push_char, read_utf8_buffered, read_utf16_buffered"]}
{"id": "C04", "title": "The scanner terminates on every input and panics only at known sites", "statement": "Every call of Scanner::scan/next returns after finitely many steps, on any input stream (including streams that fail or are interrupted at any point) and after any history of earlier calls, with a token or an error; for inputs shorter than 2^31 bytes the only panics that can occur are the three documented defects (tag followed by ',' in flow context, backslash at end of input in a double-quoted scalar, block scalar ended by end of input without line break) and, in debug builds, the debug assertion of the UTF-16 reader.", "quantifier": "every byte stream, every fault schedule, every history of calls (also after errors)", "why_tests_cant": "termination and absence of panics over all inputs cannot be observed by finitely many runs", "anchors": ["src/scanner.rs: all of impl Scanner", "src/reader.rs"]}
{"id": "C05", "title": "Scanner stream framing", "statement": "The first token returned is STREAM-START and no later one is; as soon as STREAM-END has been returned the iterator returns None and scan() keeps returning STREAM-END, whatever the input.", "quantifier": "every input and every number of calls", "why_tests_cant": "quantifies over all inputs and unbounded call sequences", "anchors": ["src/scanner.rs: scan, fetch_stream_start, fetch_stream_end, Iterator::next"]}
{"id": "C06", "title": "Token marks are ordered", "statement": "Every token's start mark is not after its end mark, and tokens come in the order of their marks: the end of a token is never after the start of the next one (by byte index and by line/column), for all tokens returned in a session.", "quantifier": "every input, every prefix of the token stream", "why_tests_cant": "simple keys insert tokens into the middle of the queue; ordering must hold for every layout", "anchors": ["src/scanner.rs: roll_indent, fetch_value, save_simple_key, fetch_stream_end", "src/token.rs: Token"]}
{"id": "C07", "title": "Block structure tokens are balanced", "statement": "In every prefix of the token stream the number of BLOCK-END tokens is at most the number of BLOCK-SEQUENCE-START and BLOCK-MAPPING-START tokens, and if the stream ends outside of any flow collection the two numbers are equal.", "quantifier": "every input, every prefix of the token stream", "why_tests_cant": "indentation stacks are unbounded", "anchors": ["src/scanner.rs: roll_indent, unroll_indent, fetch_stream_end"]}
{"id": "C08", "title": "Token payloads are well formed", "statement": "ANCHOR and ALIAS tokens carry a non-empty string of [0-9A-Za-z_-]; VERSION-DIRECTIVE numbers are between 0 and 999999999 so they fit in an i32; TAG-DIRECTIVE handles start and end with '!'; SCALAR tokens never have style Any.", "quantifier": "every input", "why_tests_cant": "needs all inputs", "anchors": ["src/scanner.rs: scan_anchor, scan_version_directive_number, scan_tag_directive_value, scan_tag_handle"]}
{"id": "C09", "title": "Input errors are reported, not swallowed", "statement": "When the reader returns an I/O error, the call that triggered the read returns that very error (it is not mistaken for the end of the stream); Interrupted is retried transparently once the encoding is known.", "quantifier": "every reader and every position of the failure", "why_tests_cant": "fault positions are a schedule", "anchors": ["src/reader.rs: yaml_parser_update_buffer, read_utf8_buffered"]}
{"id": "C10", "title": "Parser events follow the YAML event grammar", "statement": "The events returned by successive successful calls of Parser::parse form a prefix of a well-formed stream: STREAM-START, then documents DOCUMENT-START node DOCUMENT-END, then STREAM-END; every SEQUENCE-START/MAPPING-START is closed by the matching end event, and mappings have complete key/value pairs. When STREAM-END is returned the whole sequence is a well-formed stream.", "quantifier": "every input (every token stream the scanner could produce), every number of calls", "why_tests_cant": "nesting is unbounded, and malformed inputs are included", "anchors": ["src/parser.rs: Parser::parse, state_machine, parse_*"]}
{"id": "C11", "title": "The parser does not panic before its first error", "statement": "For every input, as long as no call returned an error, Parser::parse never panics on its state or mark stacks or on an empty token queue; the only possible panics are the scanner's documented ones.", "quantifier": "every input, every number of calls before the first error", "why_tests_cant": "stack discipline over unbounded histories", "anchors": ["src/parser.rs"]}
{"id": "C12", "title": "The parser terminates and produces linearly many events", "statement": "Every call of Parser::parse returns, and for an input of n bytes at most a fixed linear number of events in n is produced before STREAM-END, so no input makes the event stream explode.", "quantifier": "every input", "why_tests_cant": "a complexity bound over all inputs", "anchors": ["src/parser.rs", "src/scanner.rs"]}
{"id": "C13", "title": "%YAML directives", "statement": "A DOCUMENT-START event carries a version directive only if it is 1.1 or 1.2; a second %YAML directive or another version in the same document prefix makes the call fail.", "quantifier": "every input / token stream and every document of it", "why_tests_cant": "needs all inputs", "anchors": ["src/parser.rs: process_directives"]}
{"id": "C14", "title": "%TAG directives are unique per document and do not leak", "statement": "The tag directives of a DOCUMENT-START event have pairwise distinct handles, and the directives used to resolve tags in a document are exactly those of that document plus the defaults for ! and !!; nothing is inherited from earlier documents.", "quantifier": "every input and every document index", "why_tests_cant": "multi-document histories of any length", "anchors": ["src/parser.rs: process_directives, append_tag_directive, parse_document_end"]}
{"id": "C15", "title": "Tag resolution", "statement": "A node written with a tag !<uri> gets that uri, one written with handle h and suffix s gets prefix(h) ++ s where prefix(h) is taken from the document's directives (first match) or the defaults, and an unknown handle is an error; a node without tag gets none and is implicit.", "quantifier": "every input, every node", "why_tests_cant": "needs all inputs and directive sets", "anchors": ["src/parser.rs: parse_node"]}
{"id": "C16", "title": "After the end the parser stays ended", "statement": "Once STREAM-END has been returned, every later parse() returns STREAM-END and every next() returns None, without touching the reader.", "quantifier": "every input, every number of later calls", "why_tests_cant": "unbounded call sequences", "anchors": ["src/parser.rs: Parser::parse, Iterator::next"]}
{"id": "C17", "title": "reset() gives a fresh object", "statement": "After any history (also after errors) reset() puts the scanner, parser or emitter in exactly the state of a new one: feeding it an input gives the same results as a new object.", "quantifier": "every history", "why_tests_cant": "histories are unbounded", "anchors": ["src/scanner.rs: reset", "src/parser.rs: reset", "src/emitter.rs: reset"]}
{"id": "C18", "title": "Loaded documents are structurally sound", "statement": "A document returned by Document::load either has no nodes (end of stream) or its first node is the root and every node is a scalar, sequence or mapping whose children indices are all in 1..=len; no mapping pair has a missing key or value.", "quantifier": "every input, every document of the stream", "why_tests_cant": "needs all inputs; children are patched in by index", "anchors": ["src/document.rs: load, load_nodes, load_node_add"]}
{"id": "C19", "title": "Aliases resolve to the anchored node of the same document", "statement": "While loading, an alias is replaced by the index of the node that carried that anchor earlier in the same document; an alias without such an anchor and an anchor defined twice in one document are composer errors; anchors never survive into the next document.", "quantifier": "every input, every document, every anchor name", "why_tests_cant": "history dependent", "anchors": ["src/document.rs: register_anchor, load_alias, load"]}
{"id": "C20", "title": "Document::load represents the event stream", "statement": "The loaded node table is exactly the pre-order numbering of the document's events: the i-th node corresponds to the i-th scalar/sequence/mapping event with its value, style, marks and (defaulted) tag, and walking the table from the root reproduces the events of the document.", "quantifier": "every well-formed event sequence", "why_tests_cant": "needs all documents", "anchors": ["src/document.rs: load_scalar, load_sequence, load_mapping, load_*_end"]}
{"id": "C21", "title": "Document building API", "statement": "add_scalar/add_sequence/add_mapping return a new id equal to the new number of nodes, get_node(id) then returns the node just described, all earlier nodes are unchanged; append_sequence_item and yaml_document_append_mapping_pair add exactly one child at the end of the designated node and change nothing else; they panic exactly when an id is out of range or the node has another kind.", "quantifier": "every document and every sequence of API calls", "why_tests_cant": "arbitrary histories of calls", "anchors": ["src/document.rs: add_scalar, add_sequence, add_mapping, append_sequence_item, yaml_document_append_mapping_pair, get_node"]}
{"id": "C22", "title": "get_node is total", "statement": "get_node/get_node_mut return None for every index out of range and never panic.", "quantifier": "every document and every i32", "why_tests_cant": "all index values", "anchors": ["src/document.rs: get_node, get_node_mut"]}
{"id": "C23", "title": "dump emits the document in order", "statement": "Document::dump of a document whose nodes form a tree emits exactly DOCUMENT-START, the pre-order events of the tree, DOCUMENT-END (opening the stream first if needed). In general the nodes are walked from the root: a node met again is emitted as an alias of the anchor it was given when first met, different nodes having different anchors, provided that the document's root refers to each shared node twice; with any other sharing dump does not succeed (it panics: a defect of the code). An empty document closes the stream.", "quantifier": "every document", "why_tests_cant": "all documents, all sharing patterns", "anchors": ["src/document.rs: dump, anchor_node, dump_node"]}
{"id": "C24", "title": "Document to events and back", "statement": "For a tree-shaped document the events sent to the emitter by dump, when loaded again, give a document with the same tree of values, styles and tags.", "quantifier": "every tree-shaped document", "why_tests_cant": "all documents", "anchors": ["src/document.rs"]}
{"id": "C25", "title": "The emitter accepts every well-formed event sequence", "statement": "Any event sequence of the YAML event grammar whose anchors, tags and directives are valid is accepted by Emitter::emit without error and without panic as long as the writer accepts the output; an event that violates the grammar is answered by an emitter error, not a panic.", "quantifier": "every event sequence, every setting", "why_tests_cant": "unbounded nesting and lookahead queue", "anchors": ["src/emitter.rs: emit, needs_mode_events, state_machine, emit_*"]}
{"id": "C26", "title": "Output buffering is transparent", "statement": "The bytes received by the writer are always a prefix of the encoded text produced so far, everything is written when a document or the stream ends, and the text does not depend on when the internal buffer is flushed.", "quantifier": "every event sequence, every buffer fill level", "why_tests_cant": "flush points depend on sizes", "anchors": ["src/emitter.rs: flush, flush_if_needed, put, write_str"]}
{"id": "C27", "title": "Write failures are reported", "statement": "If a write to the output handler fails during a call of emit, open, close, flush or dump, that call returns that I/O error.", "quantifier": "every event sequence and every position of the failure", "why_tests_cant": "fault positions are a schedule", "anchors": ["src/emitter.rs: flush"]}
{"id": "C28", "title": "Emitter settings are normalised", "statement": "Whatever indent, width and line break are requested, the stream is written with an indent between 2 and 9, a width that is unlimited or larger than twice the indent, a line break that is not Any, and an encoding that is not Any.", "quantifier": "every combination of i32 settings", "why_tests_cant": "all values", "anchors": ["src/emitter.rs: set_indent, set_width, emit_stream_start"]}
{"id": "C29", "title": "The emitter refuses invalid names", "statement": "emit returns an error, and writes nothing for that event, if an anchor or alias is empty or contains a character outside [0-9A-Za-z_-], a tag that is to be written is empty, a %TAG handle is not of the form !word! or ! or !!, a %TAG prefix is empty, or a %YAML version is not 1.1/1.2.", "quantifier": "every event", "why_tests_cant": "all strings", "anchors": ["src/emitter.rs: analyze_anchor, analyze_tag, analyze_tag_directive, analyze_version_directive"]}
{"id": "C30", "title": "Double-quoted scalars round-trip", "statement": "For every string the text written for a double-quoted scalar (any width, any indentation, unicode on or off, breaks allowed or not) is read back by the scanner as one double-quoted SCALAR token with exactly that string.", "quantifier": "every string of Unicode scalar values, every emitter setting and position", "why_tests_cant": "all strings; escapes and line folding interact", "anchors": ["src/emitter.rs: write_double_quoted_scalar", "src/scanner.rs: scan_flow_scalar"]}
{"id": "C31", "title": "Single-quoted scalars round-trip", "statement": "For every string the emitter's analysis allows in single quotes, the text written is read back as exactly that string.", "quantifier": "every allowed string, setting and position", "why_tests_cant": "all strings; folding of breaks and spaces", "anchors": ["src/emitter.rs: write_single_quoted_scalar, analyze_scalar", "src/scanner.rs: scan_flow_scalar"]}
{"id": "C32", "title": "Plain scalars round-trip", "statement": "For every string the emitter's analysis allows as a plain scalar in the given context (block or flow), the text written is read back as one plain SCALAR token with exactly that string.", "quantifier": "every allowed string, setting, position and context", "why_tests_cant": "all strings; indicator rules", "anchors": ["src/emitter.rs: write_plain_scalar, analyze_scalar, select_scalar_style", "src/scanner.rs: scan_plain_scalar"]}
{"id": "C33", "title": "Literal scalars round-trip", "statement": "For every string the emitter's analysis allows in block style, the text written for a literal block scalar is read back as exactly that string.", "quantifier": "every allowed string and indentation", "why_tests_cant": "all strings; chomping and indentation hints", "anchors": ["src/emitter.rs: write_literal_scalar, write_block_scalar_hints", "src/scanner.rs: scan_block_scalar"]}
{"id": "C34", "title": "Folded scalars round-trip", "statement": "For every string the emitter's analysis allows in block style, the text written for a folded block scalar is read back as exactly that string.", "quantifier": "every allowed string and indentation", "why_tests_cant": "all strings; folding", "anchors": ["src/emitter.rs: write_folded_scalar", "src/scanner.rs: scan_block_scalar"]}
{"id": "C35", "title": "Style selection is safe", "statement": "The style chosen for a scalar is one in which its value can be represented: never Any, plain only where the analysis allows it in the current context, single quotes only if allowed, block styles never in flow context or simple keys, and the non-plain fallback tag ! is added exactly when the event's implicit flags require it.", "quantifier": "every event, context and setting", "why_tests_cant": "all combinations", "anchors": ["src/emitter.rs: select_scalar_style, analyze_scalar"]}
{"id": "C36", "title": "ASCII output when unicode is off", "statement": "If set_unicode(true) was not called, every byte the emitter writes in UTF-8 is ASCII, whatever the content of scalars, tags and anchors.", "quantifier": "every event sequence", "why_tests_cant": "all strings", "anchors": ["src/emitter.rs: write_double_quoted_scalar, write_tag_content, analyze_scalar"]}
{"id": "C37", "title": "Output encoding", "statement": "With UTF-8, UTF-16LE or UTF-16BE output the bytes received by the writer are the encoding of the emitted text, starting with a byte order mark for UTF-16 and without one for UTF-8, and decode back to it.", "quantifier": "every event sequence", "why_tests_cant": "all texts", "anchors": ["src/emitter.rs: flush, write_bom"]}
{"id": "C38", "title": "UTF-16 input is decoded exactly", "statement": "If the input is a BOM followed by the UTF-16LE/BE encoding of a text made of allowed characters, the characters handed to the scanner are exactly that text.", "quantifier": "every text and chunking", "why_tests_cant": "all texts and schedules", "anchors": ["src/reader.rs: read_utf16_buffered, read_utf16_char_unbuffered"]}
{"id": "C39", "title": "Errors carry positions inside the input", "statement": "Marks in scanner and parser errors lie inside the text read so far (byte index at most the number of bytes of the text), and are displayed 1-based.", "quantifier": "every failing input", "why_tests_cant": "all inputs", "anchors": ["src/error.rs: Mark, Error", "src/scanner.rs", "src/parser.rs"]}
{"id": "C40", "title": "Canonical output round-trips", "statement": "For every complete stream of valid events with at least one document, emitted in canonical mode with UTF-8 as the encoding, the session succeeds unless the output handler fails, and a parser on the bytes written delivers STREAM-START, then exactly the emitted events - same collections, scalar values, anchors, aliases, tags and directives, the styles being double-quoted and flow - and then None for ever, however the bytes are chunked. Tags and prefixes are ASCII, and a tag that can be abbreviated leaves no comma or square bracket (which the emitter does not escape).", "quantifier": "every stream of events, settings with canonical set, interleaving of flushes, fault schedule and chunking of the bytes read back", "why_tests_cant": "all streams, values, nestings, settings and schedules", "anchors": ["src/emitter.rs", "src/scanner.rs", "src/parser.rs"]}
{"id": "C41", "title": "Event marks are ordered", "statement": "Every event returned by Parser::parse ends where it starts or later, events start in the order in which they are returned, and (for input that is not UTF-16) no event ends beyond the number of bytes of the input.", "quantifier": "every input stream, every prefix of the session before the first error", "why_tests_cant": "the marks come from tokens consumed in several calls, for all inputs and nestings", "anchors": ["src/parser.rs: parse_*", "src/event.rs: Event"]}
{"id": "C42", "title": "The parser neither loses, duplicates nor invents content", "statement": "The anchors, aliases and scalar values of the events returned are, in order, exactly the anchors, aliases and scalars of the tokens consumed; the only scalars without a token are empty plain ones (omitted nodes).", "quantifier": "every input stream, every prefix of the session before the first error", "why_tests_cant": "quantifies over all token sequences", "anchors": ["src/parser.rs: parse_node, process_empty_scalar"]}
{"id": "C43", "title": "Saved documents can be loaded", "statement": "Documents written with Document::dump one after the other and Emitter::close in canonical mode (UTF-8 output) can be read back with Document::load: unless the write handler fails, and however the bytes are delivered, load returns, in order, for each document one with the same directives whose node graph is isomorphic to the original's (same values, tags, items and pairs in order, same sharing and cycles), then documents without root for ever. Document starts are read as explicit, styles as double-quoted and flow.", "quantifier": "every non-empty list of documents with sound references, valid directives and tags, whose shared nodes are referred to by the root at least twice; every canonical setting of the emitter, every fault schedule of the writer, every chunking of the reader", "why_tests_cant": "quantifies over all document graphs including cyclic ones, all strings, all schedules of writes and reads", "anchors": ["src/document.rs: Document::dump, Document::load, Emitter::dump_node, anchor_node", "src/emitter.rs: Emitter::emit, close", "src/parser.rs: Parser::parse"]}
{"id": "C44", "title": "The tokens account for the text", "statement": "The tokens returned by Scanner cut the text of the input, from left to right, into token texts and gaps (blanks, line breaks, comments, a byte order mark at the start of a line) with nothing left out: every token is what the lexical grammar says of its text (scalar values with escapes resolved, line folding and chomping applied; names, handles, prefixes and versions), its marks are the positions before and after that text, and it is delimited as the grammar demands (directives and document indicators in column 0, '- ', '? ' and ': ' followed by a blank, plain scalars ending at ': ', ' #' or, in flow collections, at an indicator). Once STREAM-END is returned the whole text is accounted for. The text of a plain or quoted scalar determines its value.", "quantifier": "every text delivered in any chunks with any interruptions, UTF-8 requested or detected; any number of calls of the scanner, up to an error or panic if there is one", "why_tests_cant": "quantifies over all texts and all positions of tokens in them", "anchors": ["src/scanner.rs: Scanner::next, scan, fetch_next_token, fetch_*, scan_*", "src/token.rs: Token"]}
{"id": "C45", "title": "What is parsed can be emitted", "statement": "The events returned by a Parser that has not failed, given one by one to an Emitter with any settings, with calls of flush anywhere between them, are all accepted: emit never returns an emitter error and never panics, and it can only fail if the output handler does (tags restricted to ASCII, see the findings).", "quantifier": "every input in any encoding and delivery, any number of calls of the parser, every emitter configuration, every placement of flush calls, every behaviour of the output handler", "why_tests_cant": "quantifies over all inputs, settings and write schedules", "anchors": ["src/parser.rs: Parser::parse", "src/emitter.rs: Emitter::emit, flush"]}
{"id": "C46", "title": "Canonical reformatting keeps the events of any YAML text", "statement": "A text that parses to its end, copied event by event into a canonical emitter, gives an output that parses, however it is delivered, to the same events: same nodes, anchors, tags, aliases, directives, values, up to styles and the implicit flags which a canonical document cannot show. Copying the copy changes nothing more.", "quantifier": "every UTF-8 text that parses without error (ASCII tags, tags that can be abbreviated), every delivery of the text and of the copy, every line break, indentation and width setting, every placement of flush calls", "why_tests_cant": "quantifies over all parsable texts", "anchors": ["src/parser.rs: Parser::parse", "src/emitter.rs: Emitter::emit", "src/scanner.rs: Scanner"]}
{"id": "C47", "title": "Block and flow output is read back as it was meant", "statement": "A complete, valid stream of events given to an Emitter without the canonical setting (any indentation, width, line break and unicode setting, flush calls anywhere) is written, unless the output handler fails; the bytes written, parsed from any reader, give the same documents, nodes, anchors, aliases, tags, directives and scalar values one by one, then the end of the stream. Only styles, and flags that the text cannot show, may differ; a tag disappears only if the event said it was implied, and a scalar whose tag is implied in its plain form only but that has to be quoted comes back with the tag '!'.", "quantifier": "every well-formed event stream (plain, single-quoted, double-quoted, literal, unspecified and, for values that can be folded, folded scalar styles; block, flow and unspecified collection styles in any nesting, in keys and values; ASCII tags that can be abbreviated), every non-canonical setting with UTF-8 output, every schedule of write faults, every delivery of the output to the parser", "why_tests_cant": "quantifies over all streams, values, settings, nestings and deliveries; style selection, line folding, simple keys, indentation and indentless sequences interact", "anchors": ["src/emitter.rs: Emitter::emit", "src/scanner.rs: Scanner", "src/parser.rs: Parser::parse"]}
{"id": "C48", "title": "Documents saved in block layout are loaded again", "statement": "Documents given to Document::dump one after the other, then Emitter::close, without the canonical setting: unless the output handler fails, everything is written, and loading the output gives as many documents, each with the same version and tag directives and a graph of nodes isomorphic to the part of the saved one that can be reached from its root (same kinds, values, tags, order, sharing and cycles; styles may differ), then the empty document for ever.", "quantifier": "every non-empty list of documents that dump can write (sharing as in C23, ASCII tags that can be abbreviated, folded scalars only with values that can be folded), every non-canonical setting with UTF-8 output, every schedule of write faults, every delivery of the output to the parser", "why_tests_cant": "quantifies over all documents, settings and deliveries", "anchors": ["src/document.rs: Document::dump, Document::load", "src/emitter.rs: Emitter::emit, close", "src/parser.rs: Parser"]}
{"id": "C49", "title": "Reformatting a YAML text keeps its events", "statement": "A text that parses to its end, copied event by event into an emitter without the canonical setting, gives an output that parses, however it is delivered, to events that tell the same one by one: same documents, directives, nodes, anchors, aliases, values and tags. Only styles, document-marker flags and the implicit flags may differ, and a plain scalar that has to be quoted in the copy carries the tag '!'.", "quantifier": "every UTF-8 text that parses without error and has folded scalars only with values that can be folded again (ASCII tags that can be abbreviated), every delivery of the text and of the copy, every indentation, width, line break and unicode setting, every placement of flush calls, every schedule of write faults", "why_tests_cant": "quantifies over all parsable texts and settings", "anchors": ["src/parser.rs: Parser::parse", "src/emitter.rs: Emitter::emit", "src/scanner.rs: Scanner"]}
{"id": "C50", "title": "Load, save, load gives the same documents", "statement": "Documents loaded from a YAML text, written with dump and close under any settings, and loaded again from what was written, are the same documents: the same number of them, each with the same nodes under the same indices (tags, values, items and pairs), and the same directives. Saving them fails only if the output handler fails. Only styles, marks and document-marker flags may differ.", "quantifier": "every UTF-8 text and every sequence of successful loads from it (ASCII tags that can be abbreviated; sharing, if any, only of nodes the root refers to; folded values that can be folded again unless canonical is set), every setting with UTF-8 output, every schedule of write faults, every delivery of the text and of the copy", "why_tests_cant": "quantifies over all texts, documents, settings and deliveries", "anchors": ["src/document.rs: Document::load, Document::dump",  "src/emitter.rs: Emitter::emit", "src/parser.rs: Parser::parse"]}
{"id": "C51", "title": "Which folded scalars survive", "statement": "Whatever the emitter writes as a folded block scalar, the scanner reads as a folded scalar, without error. The value read is the value written if and only if (1) after each line that is not empty, does not start with a space and ends with a line feed, the next non-empty line starts with a space exactly if its second character is missing or a space, and (2) no line that starts with a space has a single inner space beyond the best width.", "quantifier": "every string the emitter's analysis allows in block style, every indentation, width, column and line break setting, every text that follows and every delivery of the text", "why_tests_cant": "an equivalence over all strings and settings", "anchors": ["src/emitter.rs: write_folded_scalar", "src/scanner.rs: scan_block_scalar"]}
{"id": "C52", "title": "Printed events, read again", "statement": "The parser program prints one line for each event the parser returns, in order, up to STREAM-END or up to the first error, which it reports; it is never aborted. Read by the emitter program, the printed lines give exactly the events printed (kind, anchor, tag, value, style and document markers) if and only if: no tag contains '>' or a line feed, no tag of a scalar contains a space before a style character or at its end, no event without anchor has an ampersand in its tag or an ampersand before the last character of its value, and no scalar without tag has '<' followed later by '>' in its value.", "quantifier": "every input, delivery, encoding and number of calls to the parser", "why_tests_cant": "an equivalence over all event sequences and strings", "anchors": ["src/bin/run-parser-test-suite.rs: test_main, print_escaped", "src/bin/run-emitter-test-suite.rs: test_main, get_anchor, get_tag, get_value"]}
{"id": "C53", "title": "The emitter program undoes the parser program", "statement": "For a text whose events can be read back (C52), the parser program succeeds, the emitter program fails on its output only if writing fails, and what it writes is parsed, however it is delivered, as the same sequence of nodes: the same structure, anchors, aliases, tags and values; only styles, directives and the explicitness of document markers may differ.", "quantifier": "every UTF-8 text that parses and meets C52's condition (ASCII tags that can be abbreviated, folded values that can be folded again), every schedule of write faults, every delivery of the text and of the copy", "why_tests_cant": "quantifies over all texts, fault schedules and deliveries", "anchors": ["src/bin/run-parser-test-suite.rs: test_main", "src/bin/run-emitter-test-suite.rs: test_main", "src/emitter.rs: Emitter::emit", "src/parser.rs: Parser::parse"]}
{"id": "C54", "title": "UTF-16 text given byte by byte means what it means in UTF-8", "statement": "A text given in UTF-16 (either byte order; with a byte order mark or the encoding set), one byte per read, yields the same events, the same documents and the same errors as the same text given in UTF-8, up to and including the first call that does not succeed; only the encoding named by STREAM-START differs.", "quantifier": "every text, both byte orders, every placement of interrupted reads, every delivery of the UTF-8 text, every number of calls", "why_tests_cant": "quantifies over all texts and deliveries", "anchors": ["src/reader.rs: yaml_parser_update_buffer, read_utf16_buffered, read_utf16_char_unbuffered", "src/parser.rs: Parser::parse", "src/document.rs: Document::load"]}
{"id": "C55", "title": "UTF-16 output is read back byte by byte", "statement": "Events written by the emitter in UTF-16 (either byte order, with or without the canonical setting) fail only if the output handler fails; what is written, given back byte by byte to a parser that detects the encoding, is parsed as STREAM-START naming the UTF-16 encoding, then events that tell the same as those written (the relations of C47 and C40), then the end. Documents saved in UTF-16 are loaded again, as in C48 and C43.", "quantifier": "every sequence of events as in C47 and C40, every setting with UTF-16 output, every placement of flush calls, every schedule of write faults, every placement of interrupted reads but the first", "why_tests_cant": "quantifies over all event sequences and settings", "anchors": ["src/emitter.rs: Emitter::emit, Emitter::flush", "src/reader.rs: yaml_parser_determine_encoding, read_utf16_buffered, read_utf16_char_unbuffered", "src/parser.rs: Parser::parse"]}
{"id": "C56", "title": "Errors say where they arose", "statement": "Whatever was done before with a scanner, parser, emitter or document, an Err returned by a call has a kind that fits it: scan and the token iterator return Reader, Io or Scanner errors; parse and the event iterator these or Parser errors; Document::load these or Composer errors, never Emitter errors; emit, open, close and dump only Emitter or Io errors; flush only Io errors; setters return none. The text of the problem is never empty. problem_mark is present exactly for Scanner, Parser and Composer errors, context and context_mark are present together and only with it; the error converts to std::io::Error exactly when it is Io, keeping it, and otherwise comes back unchanged. The displayed text determines the kind and, if there is one, line and column of the problem, and contains the problem.", "quantifier": "every state of a scanner, parser or emitter, every document, every call of the API, every error", "why_tests_cant": "quantifies over every state and history and every error site", "anchors": ["src/error.rs: Error, ErrorKind, Mark", "src/scanner.rs: Scanner::scan", "src/parser.rs: Parser::parse", "src/document.rs: Document::load, Document::dump", "src/emitter.rs: Emitter::emit, Emitter::flush, Emitter::open, Emitter::close"]}
{"id": "C57", "title": "Errors of the reader point at the offending byte", "statement": "While a scanner or parser reads UTF-8 (requested, or detected), its first error, if it is an error of the reader, is about the first place of the input that is not an allowed character: everything before the offset it reports (counted after a byte order mark) is UTF-8 text of allowed characters; at the offset there is either a well-formed character that YAML does not allow, which is the value reported, or no well-formed character, and the value is the byte found there. Otherwise the error is an unusable byte order mark at offset 0 of an input starting with byte 0xEF, or the limit on the input length.", "quantifier": "every input, cut into reads in every way with interruptions and I/O faults at every place, every sequence of scan/next, or parse/next/load, calls before the first error", "why_tests_cant": "quantifies over every input, chunking and history", "anchors": ["src/reader.rs: yaml_parser_update_buffer, read_utf8_buffered, read_utf8_char_unbuffered, push_char", "src/error.rs: Error::reader", "src/scanner.rs: Scanner::scan", "src/parser.rs: Parser::parse", "src/document.rs: Document::load"]}
