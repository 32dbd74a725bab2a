(** EState.v -- the emitter state (src/emitter.rs:16-80) and the model of its output handler.
    The setters are generated mechanically, one per field. *)
From Verif Require Import Base.

(** The output handler, a [std::io::Write]: what it has received so far, and what the next
    calls of [write_all] will do: accept everything, or accept only the first [k] bytes and
    return an error.  When the plan is used up every call succeeds.  So a value of this type
    is an arbitrary fault schedule. *)
Inductive write_ev := WOk | WFail (k : nat) (code : N).
Record writer := Mk_writer { w_out : list byte; w_plan : list write_ev }.

(** src/emitter.rs:90-130 [EmitterState] *)
Inductive estate :=
| EStreamStart | EFirstDocumentStart | EDocumentStart | EDocumentContent | EDocumentEnd
| EFlowSequenceFirstItem | EFlowSequenceItem | EFlowMappingFirstKey | EFlowMappingKey
| EFlowMappingSimpleValue | EFlowMappingValue | EBlockSequenceFirstItem | EBlockSequenceItem
| EBlockMappingFirstKey | EBlockMappingKey | EBlockMappingSimpleValue | EBlockMappingValue | EEnd.

(** src/emitter.rs:132-140 [Anchors] *)
Record anchors := Mk_anchors { an_references : Z; an_anchor : Z; an_serialized : bool }.
Definition anchors_default : anchors := Mk_anchors 0 0 false.

(** src/emitter.rs:16-80 [Emitter].  Field [em_x] is the field [x] of the source
    (writer = write_handler, raw = raw_buffer).  i32 fields are unbounded here. *)
Record est := Mk_est {
  em_writer : option writer;
  em_buffer : list char;
  em_raw : list byte;
  em_encoding : encoding;
  em_canonical : bool;
  em_best_indent : Z;
  em_best_width : Z;
  em_unicode : bool;
  em_line_break : line_break;
  em_states : list estate;
  em_state : estate;
  em_events : list event;
  em_indents : list Z;
  em_tag_directives : list tag_directive;
  em_indent : Z;
  em_flow_level : Z;
  em_root_context : bool;
  em_sequence_context : bool;
  em_mapping_context : bool;
  em_simple_key_context : bool;
  em_line : Z;
  em_column : Z;
  em_whitespace : bool;
  em_indention : bool;
  em_open_ended : Z;
  em_opened : bool;
  em_closed : bool;
  em_anchors : list anchors;
  em_last_anchor_id : Z
}.
Definition set_em_writer (v : option writer) (s : est) : est :=
  Mk_est v (em_buffer s) (em_raw s) (em_encoding s) (em_canonical s) (em_best_indent s) (em_best_width s) (em_unicode s) (em_line_break s) (em_states s) (em_state s) (em_events s) (em_indents s) (em_tag_directives s) (em_indent s) (em_flow_level s) (em_root_context s) (em_sequence_context s) (em_mapping_context s) (em_simple_key_context s) (em_line s) (em_column s) (em_whitespace s) (em_indention s) (em_open_ended s) (em_opened s) (em_closed s) (em_anchors s) (em_last_anchor_id s).
Definition set_em_buffer (v : list char) (s : est) : est :=
  Mk_est (em_writer s) v (em_raw s) (em_encoding s) (em_canonical s) (em_best_indent s) (em_best_width s) (em_unicode s) (em_line_break s) (em_states s) (em_state s) (em_events s) (em_indents s) (em_tag_directives s) (em_indent s) (em_flow_level s) (em_root_context s) (em_sequence_context s) (em_mapping_context s) (em_simple_key_context s) (em_line s) (em_column s) (em_whitespace s) (em_indention s) (em_open_ended s) (em_opened s) (em_closed s) (em_anchors s) (em_last_anchor_id s).
Definition set_em_raw (v : list byte) (s : est) : est :=
  Mk_est (em_writer s) (em_buffer s) v (em_encoding s) (em_canonical s) (em_best_indent s) (em_best_width s) (em_unicode s) (em_line_break s) (em_states s) (em_state s) (em_events s) (em_indents s) (em_tag_directives s) (em_indent s) (em_flow_level s) (em_root_context s) (em_sequence_context s) (em_mapping_context s) (em_simple_key_context s) (em_line s) (em_column s) (em_whitespace s) (em_indention s) (em_open_ended s) (em_opened s) (em_closed s) (em_anchors s) (em_last_anchor_id s).
Definition set_em_encoding (v : encoding) (s : est) : est :=
  Mk_est (em_writer s) (em_buffer s) (em_raw s) v (em_canonical s) (em_best_indent s) (em_best_width s) (em_unicode s) (em_line_break s) (em_states s) (em_state s) (em_events s) (em_indents s) (em_tag_directives s) (em_indent s) (em_flow_level s) (em_root_context s) (em_sequence_context s) (em_mapping_context s) (em_simple_key_context s) (em_line s) (em_column s) (em_whitespace s) (em_indention s) (em_open_ended s) (em_opened s) (em_closed s) (em_anchors s) (em_last_anchor_id s).
Definition set_em_canonical (v : bool) (s : est) : est :=
  Mk_est (em_writer s) (em_buffer s) (em_raw s) (em_encoding s) v (em_best_indent s) (em_best_width s) (em_unicode s) (em_line_break s) (em_states s) (em_state s) (em_events s) (em_indents s) (em_tag_directives s) (em_indent s) (em_flow_level s) (em_root_context s) (em_sequence_context s) (em_mapping_context s) (em_simple_key_context s) (em_line s) (em_column s) (em_whitespace s) (em_indention s) (em_open_ended s) (em_opened s) (em_closed s) (em_anchors s) (em_last_anchor_id s).
Definition set_em_best_indent (v : Z) (s : est) : est :=
  Mk_est (em_writer s) (em_buffer s) (em_raw s) (em_encoding s) (em_canonical s) v (em_best_width s) (em_unicode s) (em_line_break s) (em_states s) (em_state s) (em_events s) (em_indents s) (em_tag_directives s) (em_indent s) (em_flow_level s) (em_root_context s) (em_sequence_context s) (em_mapping_context s) (em_simple_key_context s) (em_line s) (em_column s) (em_whitespace s) (em_indention s) (em_open_ended s) (em_opened s) (em_closed s) (em_anchors s) (em_last_anchor_id s).
Definition set_em_best_width (v : Z) (s : est) : est :=
  Mk_est (em_writer s) (em_buffer s) (em_raw s) (em_encoding s) (em_canonical s) (em_best_indent s) v (em_unicode s) (em_line_break s) (em_states s) (em_state s) (em_events s) (em_indents s) (em_tag_directives s) (em_indent s) (em_flow_level s) (em_root_context s) (em_sequence_context s) (em_mapping_context s) (em_simple_key_context s) (em_line s) (em_column s) (em_whitespace s) (em_indention s) (em_open_ended s) (em_opened s) (em_closed s) (em_anchors s) (em_last_anchor_id s).
Definition set_em_unicode (v : bool) (s : est) : est :=
  Mk_est (em_writer s) (em_buffer s) (em_raw s) (em_encoding s) (em_canonical s) (em_best_indent s) (em_best_width s) v (em_line_break s) (em_states s) (em_state s) (em_events s) (em_indents s) (em_tag_directives s) (em_indent s) (em_flow_level s) (em_root_context s) (em_sequence_context s) (em_mapping_context s) (em_simple_key_context s) (em_line s) (em_column s) (em_whitespace s) (em_indention s) (em_open_ended s) (em_opened s) (em_closed s) (em_anchors s) (em_last_anchor_id s).
Definition set_em_line_break (v : line_break) (s : est) : est :=
  Mk_est (em_writer s) (em_buffer s) (em_raw s) (em_encoding s) (em_canonical s) (em_best_indent s) (em_best_width s) (em_unicode s) v (em_states s) (em_state s) (em_events s) (em_indents s) (em_tag_directives s) (em_indent s) (em_flow_level s) (em_root_context s) (em_sequence_context s) (em_mapping_context s) (em_simple_key_context s) (em_line s) (em_column s) (em_whitespace s) (em_indention s) (em_open_ended s) (em_opened s) (em_closed s) (em_anchors s) (em_last_anchor_id s).
Definition set_em_states (v : list estate) (s : est) : est :=
  Mk_est (em_writer s) (em_buffer s) (em_raw s) (em_encoding s) (em_canonical s) (em_best_indent s) (em_best_width s) (em_unicode s) (em_line_break s) v (em_state s) (em_events s) (em_indents s) (em_tag_directives s) (em_indent s) (em_flow_level s) (em_root_context s) (em_sequence_context s) (em_mapping_context s) (em_simple_key_context s) (em_line s) (em_column s) (em_whitespace s) (em_indention s) (em_open_ended s) (em_opened s) (em_closed s) (em_anchors s) (em_last_anchor_id s).
Definition set_em_state (v : estate) (s : est) : est :=
  Mk_est (em_writer s) (em_buffer s) (em_raw s) (em_encoding s) (em_canonical s) (em_best_indent s) (em_best_width s) (em_unicode s) (em_line_break s) (em_states s) v (em_events s) (em_indents s) (em_tag_directives s) (em_indent s) (em_flow_level s) (em_root_context s) (em_sequence_context s) (em_mapping_context s) (em_simple_key_context s) (em_line s) (em_column s) (em_whitespace s) (em_indention s) (em_open_ended s) (em_opened s) (em_closed s) (em_anchors s) (em_last_anchor_id s).
Definition set_em_events (v : list event) (s : est) : est :=
  Mk_est (em_writer s) (em_buffer s) (em_raw s) (em_encoding s) (em_canonical s) (em_best_indent s) (em_best_width s) (em_unicode s) (em_line_break s) (em_states s) (em_state s) v (em_indents s) (em_tag_directives s) (em_indent s) (em_flow_level s) (em_root_context s) (em_sequence_context s) (em_mapping_context s) (em_simple_key_context s) (em_line s) (em_column s) (em_whitespace s) (em_indention s) (em_open_ended s) (em_opened s) (em_closed s) (em_anchors s) (em_last_anchor_id s).
Definition set_em_indents (v : list Z) (s : est) : est :=
  Mk_est (em_writer s) (em_buffer s) (em_raw s) (em_encoding s) (em_canonical s) (em_best_indent s) (em_best_width s) (em_unicode s) (em_line_break s) (em_states s) (em_state s) (em_events s) v (em_tag_directives s) (em_indent s) (em_flow_level s) (em_root_context s) (em_sequence_context s) (em_mapping_context s) (em_simple_key_context s) (em_line s) (em_column s) (em_whitespace s) (em_indention s) (em_open_ended s) (em_opened s) (em_closed s) (em_anchors s) (em_last_anchor_id s).
Definition set_em_tag_directives (v : list tag_directive) (s : est) : est :=
  Mk_est (em_writer s) (em_buffer s) (em_raw s) (em_encoding s) (em_canonical s) (em_best_indent s) (em_best_width s) (em_unicode s) (em_line_break s) (em_states s) (em_state s) (em_events s) (em_indents s) v (em_indent s) (em_flow_level s) (em_root_context s) (em_sequence_context s) (em_mapping_context s) (em_simple_key_context s) (em_line s) (em_column s) (em_whitespace s) (em_indention s) (em_open_ended s) (em_opened s) (em_closed s) (em_anchors s) (em_last_anchor_id s).
Definition set_em_indent (v : Z) (s : est) : est :=
  Mk_est (em_writer s) (em_buffer s) (em_raw s) (em_encoding s) (em_canonical s) (em_best_indent s) (em_best_width s) (em_unicode s) (em_line_break s) (em_states s) (em_state s) (em_events s) (em_indents s) (em_tag_directives s) v (em_flow_level s) (em_root_context s) (em_sequence_context s) (em_mapping_context s) (em_simple_key_context s) (em_line s) (em_column s) (em_whitespace s) (em_indention s) (em_open_ended s) (em_opened s) (em_closed s) (em_anchors s) (em_last_anchor_id s).
Definition set_em_flow_level (v : Z) (s : est) : est :=
  Mk_est (em_writer s) (em_buffer s) (em_raw s) (em_encoding s) (em_canonical s) (em_best_indent s) (em_best_width s) (em_unicode s) (em_line_break s) (em_states s) (em_state s) (em_events s) (em_indents s) (em_tag_directives s) (em_indent s) v (em_root_context s) (em_sequence_context s) (em_mapping_context s) (em_simple_key_context s) (em_line s) (em_column s) (em_whitespace s) (em_indention s) (em_open_ended s) (em_opened s) (em_closed s) (em_anchors s) (em_last_anchor_id s).
Definition set_em_root_context (v : bool) (s : est) : est :=
  Mk_est (em_writer s) (em_buffer s) (em_raw s) (em_encoding s) (em_canonical s) (em_best_indent s) (em_best_width s) (em_unicode s) (em_line_break s) (em_states s) (em_state s) (em_events s) (em_indents s) (em_tag_directives s) (em_indent s) (em_flow_level s) v (em_sequence_context s) (em_mapping_context s) (em_simple_key_context s) (em_line s) (em_column s) (em_whitespace s) (em_indention s) (em_open_ended s) (em_opened s) (em_closed s) (em_anchors s) (em_last_anchor_id s).
Definition set_em_sequence_context (v : bool) (s : est) : est :=
  Mk_est (em_writer s) (em_buffer s) (em_raw s) (em_encoding s) (em_canonical s) (em_best_indent s) (em_best_width s) (em_unicode s) (em_line_break s) (em_states s) (em_state s) (em_events s) (em_indents s) (em_tag_directives s) (em_indent s) (em_flow_level s) (em_root_context s) v (em_mapping_context s) (em_simple_key_context s) (em_line s) (em_column s) (em_whitespace s) (em_indention s) (em_open_ended s) (em_opened s) (em_closed s) (em_anchors s) (em_last_anchor_id s).
Definition set_em_mapping_context (v : bool) (s : est) : est :=
  Mk_est (em_writer s) (em_buffer s) (em_raw s) (em_encoding s) (em_canonical s) (em_best_indent s) (em_best_width s) (em_unicode s) (em_line_break s) (em_states s) (em_state s) (em_events s) (em_indents s) (em_tag_directives s) (em_indent s) (em_flow_level s) (em_root_context s) (em_sequence_context s) v (em_simple_key_context s) (em_line s) (em_column s) (em_whitespace s) (em_indention s) (em_open_ended s) (em_opened s) (em_closed s) (em_anchors s) (em_last_anchor_id s).
Definition set_em_simple_key_context (v : bool) (s : est) : est :=
  Mk_est (em_writer s) (em_buffer s) (em_raw s) (em_encoding s) (em_canonical s) (em_best_indent s) (em_best_width s) (em_unicode s) (em_line_break s) (em_states s) (em_state s) (em_events s) (em_indents s) (em_tag_directives s) (em_indent s) (em_flow_level s) (em_root_context s) (em_sequence_context s) (em_mapping_context s) v (em_line s) (em_column s) (em_whitespace s) (em_indention s) (em_open_ended s) (em_opened s) (em_closed s) (em_anchors s) (em_last_anchor_id s).
Definition set_em_line (v : Z) (s : est) : est :=
  Mk_est (em_writer s) (em_buffer s) (em_raw s) (em_encoding s) (em_canonical s) (em_best_indent s) (em_best_width s) (em_unicode s) (em_line_break s) (em_states s) (em_state s) (em_events s) (em_indents s) (em_tag_directives s) (em_indent s) (em_flow_level s) (em_root_context s) (em_sequence_context s) (em_mapping_context s) (em_simple_key_context s) v (em_column s) (em_whitespace s) (em_indention s) (em_open_ended s) (em_opened s) (em_closed s) (em_anchors s) (em_last_anchor_id s).
Definition set_em_column (v : Z) (s : est) : est :=
  Mk_est (em_writer s) (em_buffer s) (em_raw s) (em_encoding s) (em_canonical s) (em_best_indent s) (em_best_width s) (em_unicode s) (em_line_break s) (em_states s) (em_state s) (em_events s) (em_indents s) (em_tag_directives s) (em_indent s) (em_flow_level s) (em_root_context s) (em_sequence_context s) (em_mapping_context s) (em_simple_key_context s) (em_line s) v (em_whitespace s) (em_indention s) (em_open_ended s) (em_opened s) (em_closed s) (em_anchors s) (em_last_anchor_id s).
Definition set_em_whitespace (v : bool) (s : est) : est :=
  Mk_est (em_writer s) (em_buffer s) (em_raw s) (em_encoding s) (em_canonical s) (em_best_indent s) (em_best_width s) (em_unicode s) (em_line_break s) (em_states s) (em_state s) (em_events s) (em_indents s) (em_tag_directives s) (em_indent s) (em_flow_level s) (em_root_context s) (em_sequence_context s) (em_mapping_context s) (em_simple_key_context s) (em_line s) (em_column s) v (em_indention s) (em_open_ended s) (em_opened s) (em_closed s) (em_anchors s) (em_last_anchor_id s).
Definition set_em_indention (v : bool) (s : est) : est :=
  Mk_est (em_writer s) (em_buffer s) (em_raw s) (em_encoding s) (em_canonical s) (em_best_indent s) (em_best_width s) (em_unicode s) (em_line_break s) (em_states s) (em_state s) (em_events s) (em_indents s) (em_tag_directives s) (em_indent s) (em_flow_level s) (em_root_context s) (em_sequence_context s) (em_mapping_context s) (em_simple_key_context s) (em_line s) (em_column s) (em_whitespace s) v (em_open_ended s) (em_opened s) (em_closed s) (em_anchors s) (em_last_anchor_id s).
Definition set_em_open_ended (v : Z) (s : est) : est :=
  Mk_est (em_writer s) (em_buffer s) (em_raw s) (em_encoding s) (em_canonical s) (em_best_indent s) (em_best_width s) (em_unicode s) (em_line_break s) (em_states s) (em_state s) (em_events s) (em_indents s) (em_tag_directives s) (em_indent s) (em_flow_level s) (em_root_context s) (em_sequence_context s) (em_mapping_context s) (em_simple_key_context s) (em_line s) (em_column s) (em_whitespace s) (em_indention s) v (em_opened s) (em_closed s) (em_anchors s) (em_last_anchor_id s).
Definition set_em_opened (v : bool) (s : est) : est :=
  Mk_est (em_writer s) (em_buffer s) (em_raw s) (em_encoding s) (em_canonical s) (em_best_indent s) (em_best_width s) (em_unicode s) (em_line_break s) (em_states s) (em_state s) (em_events s) (em_indents s) (em_tag_directives s) (em_indent s) (em_flow_level s) (em_root_context s) (em_sequence_context s) (em_mapping_context s) (em_simple_key_context s) (em_line s) (em_column s) (em_whitespace s) (em_indention s) (em_open_ended s) v (em_closed s) (em_anchors s) (em_last_anchor_id s).
Definition set_em_closed (v : bool) (s : est) : est :=
  Mk_est (em_writer s) (em_buffer s) (em_raw s) (em_encoding s) (em_canonical s) (em_best_indent s) (em_best_width s) (em_unicode s) (em_line_break s) (em_states s) (em_state s) (em_events s) (em_indents s) (em_tag_directives s) (em_indent s) (em_flow_level s) (em_root_context s) (em_sequence_context s) (em_mapping_context s) (em_simple_key_context s) (em_line s) (em_column s) (em_whitespace s) (em_indention s) (em_open_ended s) (em_opened s) v (em_anchors s) (em_last_anchor_id s).
Definition set_em_anchors (v : list anchors) (s : est) : est :=
  Mk_est (em_writer s) (em_buffer s) (em_raw s) (em_encoding s) (em_canonical s) (em_best_indent s) (em_best_width s) (em_unicode s) (em_line_break s) (em_states s) (em_state s) (em_events s) (em_indents s) (em_tag_directives s) (em_indent s) (em_flow_level s) (em_root_context s) (em_sequence_context s) (em_mapping_context s) (em_simple_key_context s) (em_line s) (em_column s) (em_whitespace s) (em_indention s) (em_open_ended s) (em_opened s) (em_closed s) v (em_last_anchor_id s).
Definition set_em_last_anchor_id (v : Z) (s : est) : est :=
  Mk_est (em_writer s) (em_buffer s) (em_raw s) (em_encoding s) (em_canonical s) (em_best_indent s) (em_best_width s) (em_unicode s) (em_line_break s) (em_states s) (em_state s) (em_events s) (em_indents s) (em_tag_directives s) (em_indent s) (em_flow_level s) (em_root_context s) (em_sequence_context s) (em_mapping_context s) (em_simple_key_context s) (em_line s) (em_column s) (em_whitespace s) (em_indention s) (em_open_ended s) (em_opened s) (em_closed s) (em_anchors s) v.

(** src/emitter.rs:176-208 [Emitter::new] *)
Definition emitter_new : est :=
  Mk_est None [] [] EncAny false 0 0 false BrAny [] EStreamStart [] [] [] 0 0
         false false false false 0 0 false false 0 false false [] 0.

(** src/emitter.rs:211-213 [Emitter::reset] *)
Definition emitter_reset : M est unit := modify (fun _ => emitter_new).
