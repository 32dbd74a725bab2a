(** State.v -- the scanner state (src/scanner.rs:16-51) and the model of its input stream.
    The setters are generated mechanically, one per field. *)
From Verif Require Import Base Utf.

(** The input stream, a [std::io::BufRead].  [s_cur] is what a [fill_buf] returns now without
    touching the underlying reader; [s_evs] is what the following reads of the underlying
    reader return: some bytes (an empty list is an end of file), [ErrorKind::Interrupted] or
    another I/O error.  So a value of this type is an arbitrary chunking and fault schedule. *)
Inductive src_ev := SData (l : list byte) | SIntr | SFail (code : N).
Record source := Mk_source { s_cur : list byte; s_evs : list src_ev }.

(** src/parser.rs:37-49 [SimpleKey] *)
Record simple_key := Mk_sk { sk_possible : bool; sk_required : bool; sk_token : N; sk_mark : mark }.

(** src/scanner.rs:16-51 [Scanner].  Field correspondence: src=read_handler, enc=encoding,
    pos=mark; the other names are those of the source.  i32/i64/u64/usize fields are
    unbounded here (exact as long as the input has fewer than 2^31 characters);
    [debug_build] records whether the crate is compiled with debug assertions. *)
Record sst := Mk_sst {
  src : option source;
  eof : bool;
  buffer : list char;
  enc : encoding;
  offset : N;
  pos : mark;
  stream_start_produced : bool;
  stream_end_produced : bool;
  flow_level : N;
  tokens : list token;
  tokens_parsed : N;
  token_available : bool;
  indents : list Z;
  indent : Z;
  simple_key_allowed : bool;
  simple_keys : list simple_key;
  debug_build : bool
}.
Definition set_src (v : option source) (s : sst) : sst :=
  Mk_sst v (eof s) (buffer s) (enc s) (offset s) (pos s) (stream_start_produced s) (stream_end_produced s) (flow_level s) (tokens s) (tokens_parsed s) (token_available s) (indents s) (indent s) (simple_key_allowed s) (simple_keys s) (debug_build s).
Definition set_eof (v : bool) (s : sst) : sst :=
  Mk_sst (src s) v (buffer s) (enc s) (offset s) (pos s) (stream_start_produced s) (stream_end_produced s) (flow_level s) (tokens s) (tokens_parsed s) (token_available s) (indents s) (indent s) (simple_key_allowed s) (simple_keys s) (debug_build s).
Definition set_buffer (v : list char) (s : sst) : sst :=
  Mk_sst (src s) (eof s) v (enc s) (offset s) (pos s) (stream_start_produced s) (stream_end_produced s) (flow_level s) (tokens s) (tokens_parsed s) (token_available s) (indents s) (indent s) (simple_key_allowed s) (simple_keys s) (debug_build s).
Definition set_enc (v : encoding) (s : sst) : sst :=
  Mk_sst (src s) (eof s) (buffer s) v (offset s) (pos s) (stream_start_produced s) (stream_end_produced s) (flow_level s) (tokens s) (tokens_parsed s) (token_available s) (indents s) (indent s) (simple_key_allowed s) (simple_keys s) (debug_build s).
Definition set_offset (v : N) (s : sst) : sst :=
  Mk_sst (src s) (eof s) (buffer s) (enc s) v (pos s) (stream_start_produced s) (stream_end_produced s) (flow_level s) (tokens s) (tokens_parsed s) (token_available s) (indents s) (indent s) (simple_key_allowed s) (simple_keys s) (debug_build s).
Definition set_pos (v : mark) (s : sst) : sst :=
  Mk_sst (src s) (eof s) (buffer s) (enc s) (offset s) v (stream_start_produced s) (stream_end_produced s) (flow_level s) (tokens s) (tokens_parsed s) (token_available s) (indents s) (indent s) (simple_key_allowed s) (simple_keys s) (debug_build s).
Definition set_stream_start_produced (v : bool) (s : sst) : sst :=
  Mk_sst (src s) (eof s) (buffer s) (enc s) (offset s) (pos s) v (stream_end_produced s) (flow_level s) (tokens s) (tokens_parsed s) (token_available s) (indents s) (indent s) (simple_key_allowed s) (simple_keys s) (debug_build s).
Definition set_stream_end_produced (v : bool) (s : sst) : sst :=
  Mk_sst (src s) (eof s) (buffer s) (enc s) (offset s) (pos s) (stream_start_produced s) v (flow_level s) (tokens s) (tokens_parsed s) (token_available s) (indents s) (indent s) (simple_key_allowed s) (simple_keys s) (debug_build s).
Definition set_flow_level (v : N) (s : sst) : sst :=
  Mk_sst (src s) (eof s) (buffer s) (enc s) (offset s) (pos s) (stream_start_produced s) (stream_end_produced s) v (tokens s) (tokens_parsed s) (token_available s) (indents s) (indent s) (simple_key_allowed s) (simple_keys s) (debug_build s).
Definition set_tokens (v : list token) (s : sst) : sst :=
  Mk_sst (src s) (eof s) (buffer s) (enc s) (offset s) (pos s) (stream_start_produced s) (stream_end_produced s) (flow_level s) v (tokens_parsed s) (token_available s) (indents s) (indent s) (simple_key_allowed s) (simple_keys s) (debug_build s).
Definition set_tokens_parsed (v : N) (s : sst) : sst :=
  Mk_sst (src s) (eof s) (buffer s) (enc s) (offset s) (pos s) (stream_start_produced s) (stream_end_produced s) (flow_level s) (tokens s) v (token_available s) (indents s) (indent s) (simple_key_allowed s) (simple_keys s) (debug_build s).
Definition set_token_available (v : bool) (s : sst) : sst :=
  Mk_sst (src s) (eof s) (buffer s) (enc s) (offset s) (pos s) (stream_start_produced s) (stream_end_produced s) (flow_level s) (tokens s) (tokens_parsed s) v (indents s) (indent s) (simple_key_allowed s) (simple_keys s) (debug_build s).
Definition set_indents (v : list Z) (s : sst) : sst :=
  Mk_sst (src s) (eof s) (buffer s) (enc s) (offset s) (pos s) (stream_start_produced s) (stream_end_produced s) (flow_level s) (tokens s) (tokens_parsed s) (token_available s) v (indent s) (simple_key_allowed s) (simple_keys s) (debug_build s).
Definition set_indent (v : Z) (s : sst) : sst :=
  Mk_sst (src s) (eof s) (buffer s) (enc s) (offset s) (pos s) (stream_start_produced s) (stream_end_produced s) (flow_level s) (tokens s) (tokens_parsed s) (token_available s) (indents s) v (simple_key_allowed s) (simple_keys s) (debug_build s).
Definition set_simple_key_allowed (v : bool) (s : sst) : sst :=
  Mk_sst (src s) (eof s) (buffer s) (enc s) (offset s) (pos s) (stream_start_produced s) (stream_end_produced s) (flow_level s) (tokens s) (tokens_parsed s) (token_available s) (indents s) (indent s) v (simple_keys s) (debug_build s).
Definition set_simple_keys (v : list simple_key) (s : sst) : sst :=
  Mk_sst (src s) (eof s) (buffer s) (enc s) (offset s) (pos s) (stream_start_produced s) (stream_end_produced s) (flow_level s) (tokens s) (tokens_parsed s) (token_available s) (indents s) (indent s) (simple_key_allowed s) v (debug_build s).
Definition set_debug_build (v : bool) (s : sst) : sst :=
  Mk_sst (src s) (eof s) (buffer s) (enc s) (offset s) (pos s) (stream_start_produced s) (stream_end_produced s) (flow_level s) (tokens s) (tokens_parsed s) (token_available s) (indents s) (indent s) (simple_key_allowed s) (simple_keys s) v.

(** src/scanner.rs:62-81 [Scanner::new] *)
Definition scanner_new (dbg : bool) : sst :=
  Mk_sst None false [] EncAny 0 mark0 false false 0 [] 0 false [] 0%Z false [] dbg.

(** src/scanner.rs:84-87 [Scanner::set_input] (and 55-58 [set_input_string]). *)
Definition set_input (i : source) : M sst unit := fun s =>
  match src s with None => (Ok tt, set_src (Some i) s) | Some _ => (Panic PAssert, s) end.

(** src/scanner.rs:90-93 [Scanner::set_encoding] *)
Definition set_encoding (e : encoding) : M sst unit := fun s =>
  if encoding_eqb (enc s) EncAny then (Ok tt, set_enc e s) else (Panic PAssert, s).

(** src/scanner.rs:96-113 [Scanner::reset] *)
Definition scanner_reset : M sst unit := modify (fun s =>
  Mk_sst None false [] EncAny 0 mark0 false false 0 [] 0 false [] 0%Z false [] (debug_build s)).

(** Loop budget of the scanner loops: every iteration consumes a character of the buffer or
    something of the input stream. *)
Definition src_size (i : source) : nat :=
  (length (s_cur i) + fold_right (fun e n => match e with SData l => S (length l) | _ => 1%nat end + n) 0 (s_evs i))%nat.
Definition meas (s : sst) : nat :=
  (length (buffer s) + match src s with Some i => src_size i | None => 0 end)%nat.
Definition loop {A B} (body : A -> M sst (A + B)) (a : A) : M sst B :=
  fun s => loopM (S (meas s)) body a s.
