{
 "claims": [
  {
   "property": "C01",
   "status": "proved",
   "theorems": [
    "C01_exact_text"
   ],
   "note": "the characters obtained through the reader interface the scanner uses; the two side conditions (text not starting with byte 0xEF without BOM, first read not interrupted) are necessary: C01_first_byte_EF_refuted, C01_first_read_interrupted_refuted"
  },
  {
   "property": "C02",
   "status": "proved",
   "theorems": [
    "C02_tokens",
    "C02_events",
    "C02_documents"
   ],
   "note": "tokens: any session, errors included, up to and including the first panic; events and documents: up to and including the first call that fails. Also across byte order mark / requested encoding"
  },
  {
   "property": "C03",
   "status": "proved",
   "theorems": [
    "C03_only_allowed_characters",
    "C03_bad_bytes_reported"
   ],
   "note": "first half for any stream and any history; second half: bytes that do not start with an allowed character are reported by a reader error (or UnexpectedEof for a truncated character) and nothing is skipped"
  },
  {
   "property": "C04",
   "status": "proved",
   "theorems": [
    "C04_every_call_returns",
    "C04_no_overflow_below_2GiB",
    "C04_iterator_ends"
   ],
   "note": "any stream, any history of calls; the three known defects are shown reachable in Prop_Findings.v"
  },
  {
   "property": "C05",
   "status": "proved",
   "theorems": [
    "C05_first_token",
    "C05_after_stream_end",
    "C05_scan_after_end"
   ],
   "note": "any stream, any history, also across errors"
  },
  {
   "property": "C06",
   "status": "proved",
   "theorems": [
    "C06_marks_in_order"
   ],
   "note": "any stream, any history, also across errors"
  },
  {
   "property": "C07",
   "status": "proved",
   "theorems": [
    "C07_block_tokens_balanced"
   ],
   "note": "any stream, any history; outside-of-flow is stated with the nesting depth of the tokens themselves"
  },
  {
   "property": "C08",
   "status": "proved",
   "theorems": [
    "C08_tokens_well_formed"
   ],
   "note": "any stream, any history"
  },
  {
   "property": "C09",
   "status": "proved",
   "theorems": [
    "C09_scanner_io_errors",
    "C09_interrupted_is_retried",
    "C09_parser_io_errors",
    "C09_parser_interrupted_is_retried"
   ],
   "note": "scanner, parser and load, any stream, any history: failures are returned in order, exactly once, by the call that meets them"
  },
  {
   "property": "C10",
   "status": "proved",
   "theorems": [
    "C10_events_follow_the_grammar",
    "C10_no_end_before_stream_end"
   ],
   "note": "any stream; every prefix of the session before the first error; grammar in Spec_Events.v"
  },
  {
   "property": "C11",
   "status": "proved",
   "theorems": [
    "C11_only_scanner_panics",
    "C11_no_overflow_below_2GiB"
   ],
   "note": "any stream; before the first error. After an error the parser can panic: C11_panic_after_error (Prop_Findings.v)"
  },
  {
   "property": "C12",
   "status": "proved",
   "theorems": [
    "C12_every_call_returns",
    "C12_linearly_many_events"
   ],
   "note": "any stream, before the first error; at most 16 events per byte and read operation, plus 32"
  },
  {
   "property": "C13",
   "status": "proved",
   "theorems": [
    "C13_versions",
    "C13_no_version_dropped"
   ],
   "note": "every version directive token is reported by exactly one DOCUMENT-START, which has at most one, and it is 1.1 or 1.2"
  },
  {
   "property": "C14",
   "status": "proved",
   "theorems": [
    "C14_tag_directives_distinct",
    "C14_directives_do_not_leak"
   ],
   "note": ""
  },
  {
   "property": "C15",
   "status": "proved",
   "theorems": [
    "C15_events_explained_by_tokens"
   ],
   "note": "the events are explained one by one (anchor, alias, resolved tag, scalar value, style, implicit flags, directives) by consecutive groups of the tokens the scanner gives on the same input"
  },
  {
   "property": "C16",
   "status": "proved",
   "theorems": [
    "C16_after_the_end",
    "C16_parse_is_next",
    "C16_load_after_the_end"
   ],
   "note": "from every state, also after errors"
  },
  {
   "property": "C17",
   "status": "proved",
   "theorems": [
    "C17_scanner_reset",
    "C17_parser_reset",
    "C17_emitter_reset",
    "C17_parser_reset_observations"
   ],
   "note": "reset of scanner, parser, emitter from any state; state equality with a new object"
  },
  {
   "property": "C18",
   "status": "proved",
   "theorems": [
    "C18_loaded_documents_are_sound",
    "C18_load_does_not_panic",
    "C18_load_returns"
   ],
   "note": "any stream, sessions of load up to and including the first failure; a panic of load is a panic of the event session (C11)"
  },
  {
   "property": "C19",
   "status": "proved",
   "theorems": [
    "C19_anchors_of_loaded_documents",
    "C19_target_is_unique",
    "C19_composer_errors",
    "C19_refused_only_if_improper"
   ],
   "note": "with C20_node_table for the indices aliases are replaced by"
  },
  {
   "property": "C20",
   "status": "proved",
   "theorems": [
    "C20_loads_follow_the_events",
    "C20_events_are_loaded",
    "C20_node_table",
    "C20_failed_load"
   ],
   "note": "successive loads = documents of the event stream of the same input; node table = pre-order of node events; walking it gives the tree back"
  },
  {
   "property": "C21",
   "status": "proved",
   "theorems": [
    "C21_add_scalar",
    "C21_add_sequence",
    "C21_add_mapping",
    "C21_append_sequence_item",
    "C21_append_mapping_pair"
   ],
   "note": "complete functional specification of every building method, panics included"
  },
  {
   "property": "C22",
   "status": "partial",
   "theorems": [
    "C22_get_node_partial",
    "C22_get_node_refuted"
   ],
   "note": "false for index 0 in debug builds (refuted); proved for every other index and for release builds"
  },
  {
   "property": "C23",
   "status": "proved",
   "theorems": [
    "C23_tree_is_dumped_in_order",
    "C23_dump_sends_the_walk",
    "C23_every_document_can_be_walked",
    "C23_shared_nodes_are_anchored",
    "C23_other_sharing_cannot_be_dumped",
    "C23_empty_document_closes"
   ],
   "note": "any sound document, any state of the emitter and its writer; sharing below the root makes dump panic (also C23_dump_alias_refuted)"
  },
  {
   "property": "C24",
   "status": "proved",
   "theorems": [
    "C24_events_load_the_same_tree"
   ],
   "note": "the events of C23_tree_is_dumped_in_order, with any marks, are those of a document with the same values, tags, styles and header; C20 says that load returns that document"
  },
  {
   "property": "C25",
   "status": "proved",
   "theorems": [
    "C25_accepts",
    "C25_accepts_without_failures",
    "C25_accepts_only_well_formed",
    "C25_errors",
    "C25_no_panic",
    "C25_stream_start_first"
   ],
   "note": "any list of emit and flush calls up to and including the first that fails, any settings and fault schedule; tags ASCII (a non-ASCII tag can panic: C25_non_ascii_tag_panics); after an error the emitter can panic: C25_panic_after_error"
  },
  {
   "property": "C26",
   "status": "proved",
   "theorems": [
    "C26_buffering_is_transparent",
    "C26_without_failures",
    "C26_written_at_the_end"
   ],
   "note": "text and outcome independent of flushes, encoding and fault schedule; the handler always has a prefix, all of it after flush and after the end of a document or of the stream"
  },
  {
   "property": "C27",
   "status": "proved",
   "theorems": [
    "C27_write_failures_are_reported"
   ],
   "note": "any state, any fault schedule"
  },
  {
   "property": "C28",
   "status": "proved",
   "theorems": [
    "C28_settings_are_normalised"
   ],
   "note": ""
  },
  {
   "property": "C29",
   "status": "proved",
   "theorems": [
    "C29_invalid_names_write_nothing",
    "C29_invalid_directives_write_nothing",
    "C25_accepts_only_well_formed"
   ],
   "note": "in any state of the emitter, whatever events follow"
  },
  {
   "property": "C30",
   "status": "proved",
   "theorems": [
    "C30_double_quoted_round_trip"
   ],
   "note": "the text is what the writer writes from any state and settings, followed by any text; the scanner is any state with that text to come, in any chunking; indentation at least 1 (always so while scalars are written)"
  },
  {
   "property": "C31",
   "status": "proved",
   "theorems": [
    "C31_single_quoted_round_trip"
   ],
   "note": "as C30; what follows must not start with a quote"
  },
  {
   "property": "C32",
   "status": "proved",
   "theorems": [
    "C32_plain_round_trip"
   ],
   "note": "as C30, for non-empty values (the empty plain scalar is written as nothing and is not a token); followed by anything that shows the end of the scalar (plain_follow); the scanner has four characters at hand, as when it decides to scan a plain scalar"
  },
  {
   "property": "C33",
   "status": "proved",
   "theorems": [
    "C33_literal_round_trip"
   ],
   "note": "as C30; followed by a less indented line or the end (literal_follow); best indent 1 to 9 as the setters guarantee; when an indentation hint is written, the indentation is the enclosing one plus best indent, as the emitter keeps it"
  },
  {
   "property": "C34",
   "status": "partial",
   "theorems": [
    "C34_folded_round_trip_refuted",
    "C34_folded_round_trip_partial"
   ],
   "note": "false of the code: counterexample proved; true exactly of the strings whose lines fold (Spec_Folded.v: folds; C51), for every width, indentation, column and line break style, as C33"
  },
  {
   "property": "C35",
   "status": "proved",
   "theorems": [
    "C35_style_is_safe",
    "C35_style_is_respected",
    "C35_tags",
    "C35_scalars_are_written_in_the_style"
   ],
   "note": "any state of the emitter; what can be written in which style is said by positions of characters in Spec_Styles.v"
  },
  {
   "property": "C36",
   "status": "proved",
   "theorems": [
    "C36_ascii_output"
   ],
   "note": "events of Unicode scalar values (the type of Rust strings)"
  },
  {
   "property": "C37",
   "status": "proved",
   "theorems": [
    "C37_output_decodes",
    "C26_buffering_is_transparent"
   ],
   "note": "the text is the same for all encodings and the bytes decode to it"
  },
  {
   "property": "C38",
   "status": "partial",
   "theorems": [
    "C38_utf16_one_byte_partial",
    "C38_utf16_input_refuted",
    "C38_utf16_tokens_refuted",
    "C38_utf16_in_one_piece_refuted"
   ],
   "note": "the property is false of the code: C38_utf16_in_one_piece_refuted says that non-empty UTF-16 input given in one read never reaches its end, whatever it is; C38_utf16_one_byte_partial proves the property for inputs whose reads give one byte each"
  },
  {
   "property": "C39",
   "status": "proved",
   "theorems": [
    "C39_error_marks",
    "C39_positions_inside_input",
    "C39_parser_error_marks",
    "C39_displayed_one_based"
   ],
   "note": "scanner: any history; parser: up to and including the first error; index bound for input that is not UTF-16"
  },
  {
   "property": "C40",
   "status": "proved",
   "theorems": [
    "C40_canonical_round_trip"
   ],
   "note": "any settings with canonical set and UTF-8 output, any calls of emit and flush, any fault schedule; the bytes written are read back from any source; reread (Spec_Canonical.v) says what is read: styles become double-quoted and flow, flags follow the tags, document starts are explicit; at most 2^31-1 events"
  },
  {
   "property": "C41",
   "status": "proved",
   "theorems": [
    "C41_event_marks"
   ],
   "note": ""
  },
  {
   "property": "C42",
   "status": "proved",
   "theorems": [
    "C42_content_preserved"
   ],
   "note": ""
  },
  {
   "property": "C43",
   "status": "proved",
   "theorems": [
    "C43_saved_documents_are_loaded"
   ],
   "note": "any non-empty list of documents dump can write (cycles, and sharing of nodes the root refers to twice, included), any canonical settings with UTF-8, any fault schedule; node numbers are those of the walk, so the graph is the same up to renumbering; scalars must be tagged (load and add_scalar always tag them)"
  },
  {
   "property": "C44",
   "status": "proved",
   "theorems": [
    "C44_tokens_cover_the_text",
    "C44_all_of_the_text",
    "C44_text_determines_value"
   ],
   "note": "UTF-8 input (requested or detected); the indentation level of a block scalar with an explicit indentation indicator is only bounded below; tokens without text (KEY of a simple key, BLOCK-*-START, BLOCK-END) are placed by C06-C08"
  },
  {
   "property": "C45",
   "status": "proved",
   "theorems": [
    "C45_parsed_events_can_be_emitted"
   ],
   "note": "tags restricted to ASCII: other tags make the emitter panic (finding 11)"
  },
  {
   "property": "C46",
   "status": "proved",
   "theorems": [
    "C46_canonical_copy",
    "C46_canonical_copy_is_stable"
   ],
   "note": "UTF-8; tags and prefixes restricted to ASCII; a tag that the emitter can abbreviate must not leave a comma or bracket after the handle (finding 22); at least one document"
  },
  {
   "property": "C47",
   "status": "proved",
   "theorems": [
    "C47_layout_round_trip"
   ],
   "note": "any settings without canonical, UTF-8 output, any calls of emit and flush, any fault schedule; told (Spec_Layout.v) relates the events given and read; every scalar style, but a value asked to be folded must fold (foldable, Spec_Folded.v; C34, C51); nesting below 214748364; ASCII tags and finding 22 as in C40; the first document must not be an implicit one with an empty plain root (finding 10); automatic detection needs a first byte other than 0xEF (finding 2)"
  },
  {
   "property": "C48",
   "status": "proved",
   "theorems": [
    "C48_saved_documents_are_kept"
   ],
   "note": "UTF-8; storable documents as in C43; every scalar style, but a value asked to be folded must fold (foldable, Spec_Folded.v; C34, C51); the first document is not one for which nothing is written (finding 10); automatic detection needs a first byte other than 0xEF (finding 2)"
  },
  {
   "property": "C49",
   "status": "proved",
   "theorems": [
    "C49_copy_in_any_layout"
   ],
   "note": "UTF-8; folded scalars must fold (foldable, Spec_Folded.v; C34, C51); ASCII tags and finding 22 as in C46; at least one document, the first not an implicit one with an empty plain root (a text such as ...; finding 10)"
  },
  {
   "property": "C50",
   "status": "proved",
   "theorems": [
    "C50_load_save_load",
    "C50_load_save_load_canonical",
    "C50_texts_without_aliases"
   ],
   "note": "UTF-8; the conditions of C43 and C48 reduce, for loaded documents, to what is asked of tags (finding 22), of folded values (C34), of shared nodes (C23; met by texts without aliases) and of the first document (finding 10); volume below 2^31 (canonical) or 2^31/10"
  },
  {
   "property": "C51",
   "status": "proved",
   "theorems": [
    "C51_folded_round_trip_exact"
   ],
   "note": "contexts as C33; folds (Spec_Folded.v) is stated with positions of characters only"
  },
  {
   "property": "C52",
   "status": "proved",
   "theorems": [
    "C52_printed_events",
    "C52_values_escaped",
    "C52_ampersand_refuted"
   ],
   "note": "every text, delivery and number of calls; readable and on_one_line (Spec_Notation.v) are the exact condition; C52_ampersand_refuted shows two texts that do not meet it"
  },
  {
   "property": "C53",
   "status": "proved",
   "theorems": [
    "C53_tools_round_trip"
   ],
   "note": "texts all of whose events can be read back (C52); otherwise the conditions of C49, stated for the events as printed; at least one document"
  },
  {
   "property": "C54",
   "status": "proved",
   "theorems": [
    "C54_events",
    "C54_documents"
   ],
   "note": "one byte per read; for larger reads the code mishandles UTF-16 input (C38). The number of successful calls is counted on the UTF-8 side"
  },
  {
   "property": "C55",
   "status": "proved",
   "theorems": [
    "C55_utf16_round_trip",
    "C55_utf16_round_trip_canonical",
    "C55_documents",
    "C55_documents_canonical"
   ],
   "note": "the conditions of C47 and C40 (documents: C48, C43); one byte per read (for larger reads the code mishandles UTF-16 input, C38), output below 2^62 bytes"
  },
  {
   "property": "C56",
   "status": "proved",
   "theorems": [
    "C56_scanner",
    "C56_parser",
    "C56_load",
    "C56_emitter",
    "C56_flush",
    "C56_settings",
    "C56_accessors",
    "C56_display",
    "C56_display_problem"
   ],
   "note": "line + 1 and column + 1 of the displayed mark are computed without overflow; the text of std::io::Error is a parameter"
  },
  {
   "property": "C57",
   "status": "proved",
   "theorems": [
    "C57_scanner",
    "C57_parser"
   ],
   "note": "UTF-8 input, requested or detected, up to and including the first error"
  }
 ]
}