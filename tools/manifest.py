#!/usr/bin/env python3
"""Writes MANIFEST.json from the table below."""
import json
C = []
def c(p, status, thms, note): C.append({"property": p, "status": status, "theorems": thms.split(), "note": note})
c("C17","proved","C17_scanner_reset C17_parser_reset C17_emitter_reset C17_parser_reset_observations","reset of scanner, parser, emitter from any state; state equality with a new object")
c("C21","proved","C21_add_scalar C21_add_sequence C21_add_mapping C21_append_sequence_item C21_append_mapping_pair","complete functional specification of every building method, panics included")
c("C22","partial","C22_get_node_partial C22_get_node_refuted","false for index 0 in debug builds (refuted); proved for every other index and for release builds")
c("C04","proved","C04_every_call_returns C04_no_overflow_below_2GiB C04_iterator_ends","any stream, any history of calls; the three known defects are shown reachable in Prop_Findings.v")
c("C05","proved","C05_first_token C05_after_stream_end C05_scan_after_end","any stream, any history, also across errors")
c("C06","proved","C06_marks_in_order","any stream, any history, also across errors")
c("C07","proved","C07_block_tokens_balanced","any stream, any history; outside-of-flow is stated with the nesting depth of the tokens themselves")
c("C08","proved","C08_tokens_well_formed","any stream, any history")
c("C01","proved","C01_exact_text","the characters obtained through the reader interface the scanner uses; the two side conditions (text not starting with byte 0xEF without BOM, first read not interrupted) are necessary: C01_first_byte_EF_refuted, C01_first_read_interrupted_refuted")
c("C02","proved","C02_tokens C02_events C02_documents","tokens: any session, errors included, up to and including the first panic; events and documents: up to and including the first call that fails. Also across byte order mark / requested encoding")
c("C03","proved","C03_only_allowed_characters C03_bad_bytes_reported","first half for any stream and any history; second half: bytes that do not start with an allowed character are reported by a reader error (or UnexpectedEof for a truncated character) and nothing is skipped")
c("C09","proved","C09_scanner_io_errors C09_interrupted_is_retried C09_parser_io_errors C09_parser_interrupted_is_retried","scanner, parser and load, any stream, any history: failures are returned in order, exactly once, by the call that meets them")
c("C38","partial","C38_utf16_one_byte_partial C38_utf16_input_refuted C38_utf16_tokens_refuted C38_utf16_in_one_piece_refuted","the property is false of the code: C38_utf16_in_one_piece_refuted says that non-empty UTF-16 input given in one read never reaches its end, whatever it is; C38_utf16_one_byte_partial proves the property for inputs whose reads give one byte each")
c("C10","proved","C10_events_follow_the_grammar C10_no_end_before_stream_end","any stream; every prefix of the session before the first error; grammar in Spec_Events.v")
c("C11","proved","C11_only_scanner_panics C11_no_overflow_below_2GiB","any stream; before the first error. After an error the parser can panic: C11_panic_after_error (Prop_Findings.v)")
c("C12","proved","C12_every_call_returns C12_linearly_many_events","any stream, before the first error; at most 16 events per byte and read operation, plus 32")
c("C13","proved","C13_versions C13_no_version_dropped","every version directive token is reported by exactly one DOCUMENT-START, which has at most one, and it is 1.1 or 1.2")
c("C14","proved","C14_tag_directives_distinct C14_directives_do_not_leak","")
c("C15","proved","C15_events_explained_by_tokens","the events are explained one by one (anchor, alias, resolved tag, scalar value, style, implicit flags, directives) by consecutive groups of the tokens the scanner gives on the same input")
c("C16","proved","C16_after_the_end C16_parse_is_next C16_load_after_the_end","from every state, also after errors")
c("C39","proved","C39_error_marks C39_positions_inside_input C39_parser_error_marks C39_displayed_one_based","scanner: any history; parser: up to and including the first error; index bound for input that is not UTF-16")
c("C41","proved","C41_event_marks","")
c("C42","proved","C42_content_preserved","")
c("C18","proved","C18_loaded_documents_are_sound C18_load_does_not_panic C18_load_returns","any stream, sessions of load up to and including the first failure; a panic of load is a panic of the event session (C11)")
c("C19","proved","C19_anchors_of_loaded_documents C19_target_is_unique C19_composer_errors C19_refused_only_if_improper","with C20_node_table for the indices aliases are replaced by")
c("C20","proved","C20_loads_follow_the_events C20_events_are_loaded C20_node_table C20_failed_load","successive loads = documents of the event stream of the same input; node table = pre-order of node events; walking it gives the tree back")
c("C25","proved","C25_accepts C25_accepts_without_failures C25_accepts_only_well_formed C25_errors C25_no_panic C25_stream_start_first","any list of emit and flush calls up to and including the first that fails, any settings and fault schedule; tags ASCII (a non-ASCII tag can panic: C25_non_ascii_tag_panics); after an error the emitter can panic: C25_panic_after_error")
c("C26","proved","C26_buffering_is_transparent C26_without_failures C26_written_at_the_end","text and outcome independent of flushes, encoding and fault schedule; the handler always has a prefix, all of it after flush and after the end of a document or of the stream")
c("C29","proved","C29_invalid_names_write_nothing C29_invalid_directives_write_nothing C25_accepts_only_well_formed","in any state of the emitter, whatever events follow")
c("C27","proved","C27_write_failures_are_reported","any state, any fault schedule")
c("C28","proved","C28_settings_are_normalised","")
c("C35","proved","C35_style_is_safe C35_style_is_respected C35_tags C35_scalars_are_written_in_the_style","any state of the emitter; what can be written in which style is said by positions of characters in Spec_Styles.v")
c("C36","proved","C36_ascii_output","events of Unicode scalar values (the type of Rust strings)")
c("C37","proved","C37_output_decodes C26_buffering_is_transparent","the text is the same for all encodings and the bytes decode to it")
c("C34","partial","C34_folded_round_trip_refuted C34_folded_round_trip_partial","false of the code: counterexample proved; true exactly of the strings whose lines fold (Spec_Folded.v: folds; C51), for every width, indentation, column and line break style, as C33")
c("C51","proved","C51_folded_round_trip_exact","contexts as C33; folds (Spec_Folded.v) is stated with positions of characters only")
c("C23","proved","C23_tree_is_dumped_in_order C23_dump_sends_the_walk C23_every_document_can_be_walked C23_shared_nodes_are_anchored C23_other_sharing_cannot_be_dumped C23_empty_document_closes","any sound document, any state of the emitter and its writer; sharing below the root makes dump panic (also C23_dump_alias_refuted)")
c("C24","proved","C24_events_load_the_same_tree","the events of C23_tree_is_dumped_in_order, with any marks, are those of a document with the same values, tags, styles and header; C20 says that load returns that document")
c("C30","proved","C30_double_quoted_round_trip","the text is what the writer writes from any state and settings, followed by any text; the scanner is any state with that text to come, in any chunking; indentation at least 1 (always so while scalars are written)")
c("C31","proved","C31_single_quoted_round_trip","as C30; what follows must not start with a quote")
c("C32","proved","C32_plain_round_trip","as C30, for non-empty values (the empty plain scalar is written as nothing and is not a token); followed by anything that shows the end of the scalar (plain_follow); the scanner has four characters at hand, as when it decides to scan a plain scalar")
c("C33","proved","C33_literal_round_trip","as C30; followed by a less indented line or the end (literal_follow); best indent 1 to 9 as the setters guarantee; when an indentation hint is written, the indentation is the enclosing one plus best indent, as the emitter keeps it")
c("C40","proved","C40_canonical_round_trip","any settings with canonical set and UTF-8 output, any calls of emit and flush, any fault schedule; the bytes written are read back from any source; reread (Spec_Canonical.v) says what is read: styles become double-quoted and flow, flags follow the tags, document starts are explicit; at most 2^31-1 events")
c("C43","proved","C43_saved_documents_are_loaded","any non-empty list of documents dump can write (cycles, and sharing of nodes the root refers to twice, included), any canonical settings with UTF-8, any fault schedule; node numbers are those of the walk, so the graph is the same up to renumbering; scalars must be tagged (load and add_scalar always tag them)")
c("C44","proved","C44_tokens_cover_the_text C44_all_of_the_text C44_text_determines_value","UTF-8 input (requested or detected); the indentation level of a block scalar with an explicit indentation indicator is only bounded below; tokens without text (KEY of a simple key, BLOCK-*-START, BLOCK-END) are placed by C06-C08")
c("C45","proved","C45_parsed_events_can_be_emitted","tags restricted to ASCII: other tags make the emitter panic (finding 11)")
c("C46","proved","C46_canonical_copy C46_canonical_copy_is_stable","UTF-8; tags and prefixes restricted to ASCII; a tag that the emitter can abbreviate must not leave a comma or bracket after the handle (finding 22); at least one document")
c("C47","proved","C47_layout_round_trip","any settings without canonical, UTF-8 output, any calls of emit and flush, any fault schedule; told (Spec_Layout.v) relates the events given and read; every scalar style, but a value asked to be folded must fold (foldable, Spec_Folded.v; C34, C51); nesting below 214748364; ASCII tags and finding 22 as in C40; the first document must not be an implicit one with an empty plain root (finding 10); automatic detection needs a first byte other than 0xEF (finding 2)")
c("C48","proved","C48_saved_documents_are_kept","UTF-8; storable documents as in C43; every scalar style, but a value asked to be folded must fold (foldable, Spec_Folded.v; C34, C51); the first document is not one for which nothing is written (finding 10); automatic detection needs a first byte other than 0xEF (finding 2)")
c("C49","proved","C49_copy_in_any_layout","UTF-8; folded scalars must fold (foldable, Spec_Folded.v; C34, C51); ASCII tags and finding 22 as in C46; at least one document, the first not an implicit one with an empty plain root (a text such as ...; finding 10)")
c("C50","proved","C50_load_save_load C50_load_save_load_canonical C50_texts_without_aliases","UTF-8; the conditions of C43 and C48 reduce, for loaded documents, to what is asked of tags (finding 22), of folded values (C34), of shared nodes (C23; met by texts without aliases) and of the first document (finding 10); volume below 2^31 (canonical) or 2^31/10")
c("C52","proved","C52_printed_events C52_values_escaped C52_ampersand_refuted","every text, delivery and number of calls; readable and on_one_line (Spec_Notation.v) are the exact condition; C52_ampersand_refuted shows two texts that do not meet it")
c("C53","proved","C53_tools_round_trip","texts all of whose events can be read back (C52); otherwise the conditions of C49, stated for the events as printed; at least one document")
c("C54","proved","C54_events C54_documents","one byte per read; for larger reads the code mishandles UTF-16 input (C38). The number of successful calls is counted on the UTF-8 side")
c("C55","proved","C55_utf16_round_trip C55_utf16_round_trip_canonical C55_documents C55_documents_canonical","the conditions of C47 and C40 (documents: C48, C43); one byte per read (for larger reads the code mishandles UTF-16 input, C38), output below 2^62 bytes")
c("C56","proved","C56_scanner C56_parser C56_load C56_emitter C56_flush C56_settings C56_accessors C56_display C56_display_problem","line + 1 and column + 1 of the displayed mark are computed without overflow; the text of std::io::Error is a parameter")
c("C57","proved","C57_scanner C57_parser","UTF-8 input, requested or detected, up to and including the first error")
C.sort(key=lambda d: d["property"])
json.dump({"claims": C}, open("/verif/MANIFEST.json","w"), indent=1)
