(** Kinds.v -- C56: which kinds of errors each function of the library can report.
    One lemma per function of the model, all by the same tactic. *)
From Coq Require Import Lia Bool.
From Verif Require Import Base Utf Chars State Reader Scanner Parser EState Emitter Document Errors.
Open Scope N_scope.

(** In no state does [m] fail with an error that [P] does not allow. *)
Definition errs {S A} (P : error -> Prop) (m : M S A) : Prop := forall s e s', m s = (Err e, s') -> P e.
Section rules.
Context {S : Type} (P : error -> Prop).
Lemma K_ret {A} (a : A) : errs P (@ret S A a). Proof. intros s e s' H. discriminate H. Qed.
Lemma K_panics {A} p : errs P (@panics S A p). Proof. intros s e s' H. discriminate H. Qed.
Lemma K_fail {A} e : P e -> errs P (@fail S A e). Proof. intros He s x s' H. injection H as <- _. exact He. Qed.
Lemma K_get : errs P (@get S). Proof. intros s e s' H. discriminate H. Qed.
Lemma K_gets {A} f : errs P (@gets S A f). Proof. intros s e s' H. discriminate H. Qed.
Lemma K_modify f : errs P (@modify S f). Proof. intros s e s' H. discriminate H. Qed.
Lemma K_bind {A B} (m : M S A) (f : A -> M S B) : errs P m -> (forall a, errs P (f a)) -> errs P (bind m f).
Proof.
  intros H1 H2 s e s' H. unfold bind in H. destruct (m s) as [[a|x|p|] s1] eqn:E; try discriminate H.
  - exact (H2 a s1 e s' H).
  - injection H as -> _. exact (H1 s e s1 E).
Qed.
Lemma K_when b (m : M S unit) : errs P m -> errs P (when b m).
Proof. intros H. destruct b; [exact H|apply K_ret]. Qed.
Lemma K_loopM {A B} (body : A -> M S (A + B)) : (forall a, errs P (body a)) -> forall n a, errs P (loopM n body a).
Proof.
  intros H. induction n as [|n IH]; intros a; [intros s e s' X; discriminate X|]. cbn [loopM]. apply K_bind; [apply H|]. intros [a'|b]; [apply IH|apply K_ret].
Qed.
Lemma K_loop_at {A B} (body : A -> M S (A + B)) (n : S -> nat) a : (forall a, errs P (body a)) -> errs P (fun s => loopM (n s) body a s).
Proof. intros H s e s' X. exact (K_loopM body H _ _ _ _ _ X). Qed.
End rules.
Lemma K_loop P {A B} (body : A -> M sst (A + B)) a : (forall a, errs P (body a)) -> errs P (loop body a).
Proof. intros H. unfold loop. apply K_loop_at, H. Qed.
Lemma K_weak {S A} (P Q : error -> Prop) (m : M S A) : errs P m -> (forall e, P e -> Q e) -> errs Q m.
Proof. intros H HQ s e s' X. apply HQ, (H s e s' X). Qed.

Ltac says_tac := unfold reader_error, scanner_error, parser_error, loader_error, emitter_errors, says;
  cbn [kind problem In]; split; [auto 10|first [discriminate|assumption|repeat match goal with |- (if ?b then _ else _) <> _ => destruct b | |- (match ?b with _ => _ end) <> _ => destruct b end; discriminate]].
Create HintDb kk.
(** Functions written on the state itself. *)
Ltac direct := let s := fresh "s" in let e := fresh "e" in let s' := fresh "s'" in let H := fresh "H" in
  intros s e s' H; cbv zeta in H; repeat (match type of H with context [match ?x with _ => _ end] => destruct x eqn:? end; cbv zeta in H); try discriminate H;
  try (injection H as <- _; first [assumption|says_tac]).
Ltac k1 :=
  cbv beta zeta;
  lazymatch goal with
  | |- errs _ (bind _ _) => apply K_bind; [|intros ?]
  | |- errs _ (ret _) => apply K_ret
  | |- errs _ get => apply K_get
  | |- errs _ (gets _) => apply K_gets
  | |- errs _ (modify _) => apply K_modify
  | |- errs _ (panics _) => apply K_panics
  | |- errs _ (fail _) => apply K_fail; first [assumption | says_tac]
  | |- errs _ (when _ _) => apply K_when
  | |- errs _ (loop _ _) => apply K_loop; intros ?
  | |- errs _ (fun s => loopM _ _ _ s) => apply K_loop_at; intros ?
  | |- errs _ (loopM _ _ _) => apply K_loopM; intros ?
  | |- errs _ (if ?b then _ else _) => destruct b
  | |- errs _ (match ?b with _ => _ end) => destruct b
  | |- errs _ (scan_error _ _ _) => unfold scan_error
  | |- errs _ (emitter_error _) => unfold emitter_error
  | |- errs _ _ => first [solve [eauto 2 with kk] | solve [direct]]
  end.
Ltac kk := repeat k1.

Lemma K_io {A} (f : source -> (A + ioerr) * source) : errs reader_error (io f). Proof. unfold io. direct. Qed.
Hint Resolve K_io : kk.


(** ** The reader *)

Lemma K_consume_m (n : nat) : errs reader_error (consume_m n). Proof. exact (K_io _). Qed.
Hint Resolve K_consume_m : kk.

Lemma K_push_char c off : errs reader_error (push_char c off). Proof. unfold push_char. direct. Qed.
Hint Resolve K_push_char : kk.

Lemma K_determine_encoding   : errs reader_error determine_encoding. Proof. unfold determine_encoding. kk. Qed.
Hint Resolve K_determine_encoding : kk.

Lemma K_push_chars_utf8  (cs : list char) : errs reader_error (push_chars_utf8 cs). Proof. induction cs; intros; cbn [push_chars_utf8]; kk. Qed.
Hint Resolve K_push_chars_utf8 : kk.

Lemma K_read_utf8_char_unbuffered  (initial : byte) : errs reader_error (read_utf8_char_unbuffered initial). Proof. unfold read_utf8_char_unbuffered. kk. Qed.
Hint Resolve K_read_utf8_char_unbuffered : kk.

Lemma K_read_utf8_buffered   : errs reader_error read_utf8_buffered. Proof. unfold read_utf8_buffered. kk. Qed.
Hint Resolve K_read_utf8_buffered : kk.

Lemma K_push_chars_utf16  (cs : list char) (used : N) : errs reader_error (push_chars_utf16 cs used). Proof. revert used. induction cs; intros; cbn [push_chars_utf16]; kk. Qed.
Hint Resolve K_push_chars_utf16 : kk.

Lemma K_read_utf16_char_unbuffered  (be : bool) : errs reader_error (read_utf16_char_unbuffered be). Proof. unfold read_utf16_char_unbuffered. kk. Qed.
Hint Resolve K_read_utf16_char_unbuffered : kk.

Lemma K_read_utf16_buffered  (be : bool) : errs reader_error (read_utf16_buffered be). Proof. unfold read_utf16_buffered. kk. Qed.
Hint Resolve K_read_utf16_buffered : kk.

Lemma K_read_more   : errs reader_error read_more. Proof. unfold read_more. kk. Qed.
Hint Resolve K_read_more : kk.

Lemma K_fill_loop  (len : nat) : errs reader_error (fill_loop len). Proof. unfold fill_loop. kk. Qed.
Hint Resolve K_fill_loop : kk.

Lemma K_update_buffer  (len : nat) : errs reader_error (update_buffer len). Proof. unfold update_buffer. kk. Qed.
Hint Resolve K_update_buffer : kk.

Lemma K_cache  (len : nat) : errs reader_error (cache len). Proof. unfold cache. kk. Qed.
Hint Resolve K_cache : kk.


Hint Extern 3 (errs scanner_error _) => (eapply K_weak; [solve [eauto 2 with kk]|exact reader_scanner]) : kk.


(** ** The scanner *)

Lemma K_skip_char   : errs scanner_error skip_char. Proof. unfold skip_char. kk. Qed.
Hint Resolve K_skip_char : kk.

Lemma K_skip_chars  (n : nat) : errs scanner_error (skip_chars n). Proof. induction n; intros; cbn [skip_chars]; kk. Qed.
Hint Resolve K_skip_chars : kk.

Lemma K_skip_line_break   : errs scanner_error skip_line_break. Proof. unfold skip_line_break. kk. Qed.
Hint Resolve K_skip_line_break : kk.

Lemma K_read_char  (string : str) : errs scanner_error (read_char string). Proof. unfold read_char. kk. Qed.
Hint Resolve K_read_char : kk.

Lemma K_read_line_break  (string : str) : errs scanner_error (read_line_break string). Proof. unfold read_line_break. kk. Qed.
Hint Resolve K_read_line_break : kk.

Lemma K_skip_while  (cond : sst -> bool) : errs scanner_error (skip_while cond). Proof. unfold skip_while. kk. Qed.
Hint Resolve K_skip_while : kk.

Lemma K_read_while  (cond : sst -> bool) (string : str) : errs scanner_error (read_while cond string). Proof. unfold read_while. kk. Qed.
Hint Resolve K_read_while : kk.

Lemma K_push_token  (d : token_data) (a : mark) (b : mark) : errs scanner_error (push_token d a b). Proof. unfold push_token. kk. Qed.
Hint Resolve K_push_token : kk.

Lemma K_insert_token  (number : N) (t : token) : errs scanner_error (insert_token number t). Proof. unfold insert_token. kk. Qed.
Hint Resolve K_insert_token : kk.

Lemma K_stale_simple_keys   : errs scanner_error stale_simple_keys. Proof. unfold stale_simple_keys. kk. Qed.
Hint Resolve K_stale_simple_keys : kk.

Lemma K_remove_simple_key   : errs scanner_error remove_simple_key. Proof. unfold remove_simple_key. kk. Qed.
Hint Resolve K_remove_simple_key : kk.

Lemma K_save_simple_key   : errs scanner_error save_simple_key. Proof. unfold save_simple_key. kk. Qed.
Hint Resolve K_save_simple_key : kk.

Lemma K_increase_flow_level   : errs scanner_error increase_flow_level. Proof. unfold increase_flow_level. kk. Qed.
Hint Resolve K_increase_flow_level : kk.

Lemma K_decrease_flow_level   : errs scanner_error decrease_flow_level. Proof. unfold decrease_flow_level. kk. Qed.
Hint Resolve K_decrease_flow_level : kk.

Lemma K_roll_indent  (column : Z) (number : option N) (d : token_data) (m : mark) : errs scanner_error (roll_indent column number d m). Proof. unfold roll_indent. kk. Qed.
Hint Resolve K_roll_indent : kk.

Lemma K_unroll_indent  (column : Z) : errs scanner_error (unroll_indent column). Proof. unfold unroll_indent. kk. Qed.
Hint Resolve K_unroll_indent : kk.

Lemma K_fetch_stream_start   : errs scanner_error fetch_stream_start. Proof. unfold fetch_stream_start. kk. Qed.
Hint Resolve K_fetch_stream_start : kk.

Lemma K_fetch_stream_end   : errs scanner_error fetch_stream_end. Proof. unfold fetch_stream_end. kk. Qed.
Hint Resolve K_fetch_stream_end : kk.

Lemma K_fetch_indicator  (n : nat) (d : token_data) : errs scanner_error (fetch_indicator n d). Proof. unfold fetch_indicator. kk. Qed.
Hint Resolve K_fetch_indicator : kk.

Lemma K_fetch_document_indicator  (d : token_data) : errs scanner_error (fetch_document_indicator d). Proof. unfold fetch_document_indicator. kk. Qed.
Hint Resolve K_fetch_document_indicator : kk.

Lemma K_fetch_flow_collection_start  (d : token_data) : errs scanner_error (fetch_flow_collection_start d). Proof. unfold fetch_flow_collection_start. kk. Qed.
Hint Resolve K_fetch_flow_collection_start : kk.

Lemma K_fetch_flow_collection_end  (d : token_data) : errs scanner_error (fetch_flow_collection_end d). Proof. unfold fetch_flow_collection_end. kk. Qed.
Hint Resolve K_fetch_flow_collection_end : kk.

Lemma K_fetch_flow_entry   : errs scanner_error fetch_flow_entry. Proof. unfold fetch_flow_entry. kk. Qed.
Hint Resolve K_fetch_flow_entry : kk.

Lemma K_fetch_block_entry   : errs scanner_error fetch_block_entry. Proof. unfold fetch_block_entry. kk. Qed.
Hint Resolve K_fetch_block_entry : kk.

Lemma K_fetch_key   : errs scanner_error fetch_key. Proof. unfold fetch_key. kk. Qed.
Hint Resolve K_fetch_key : kk.

Lemma K_fetch_value   : errs scanner_error fetch_value. Proof. unfold fetch_value. kk. Qed.
Hint Resolve K_fetch_value : kk.

Lemma K_scan_to_next_token   : errs scanner_error scan_to_next_token. Proof. unfold scan_to_next_token. kk. Qed.
Hint Resolve K_scan_to_next_token : kk.

Lemma K_scan_directive_name  (start_mark : mark) : errs scanner_error (scan_directive_name start_mark). Proof. unfold scan_directive_name. kk. Qed.
Hint Resolve K_scan_directive_name : kk.

Lemma K_scan_version_directive_number  (start_mark : mark) : errs scanner_error (scan_version_directive_number start_mark). Proof. unfold scan_version_directive_number. kk. Qed.
Hint Resolve K_scan_version_directive_number : kk.

Lemma K_scan_version_directive_value  (start_mark : mark) : errs scanner_error (scan_version_directive_value start_mark). Proof. unfold scan_version_directive_value. kk. Qed.
Hint Resolve K_scan_version_directive_value : kk.

Lemma K_scan_tag_handle  (directive : bool) (start_mark : mark) : errs scanner_error (scan_tag_handle directive start_mark). Proof. unfold scan_tag_handle. kk. Qed.
Hint Resolve K_scan_tag_handle : kk.

Lemma K_scan_uri_escapes  (directive : bool) (start_mark : mark) (string : str) : errs scanner_error (scan_uri_escapes directive start_mark string). Proof. unfold scan_uri_escapes. kk. Qed.
Hint Resolve K_scan_uri_escapes : kk.

Lemma K_scan_tag_uri  (uri_char : bool) (directive : bool) (head : option str) (start_mark : mark) : errs scanner_error (scan_tag_uri uri_char directive head start_mark). Proof. unfold scan_tag_uri. kk. Qed.
Hint Resolve K_scan_tag_uri : kk.

Lemma K_scan_tag_directive_value  (start_mark : mark) : errs scanner_error (scan_tag_directive_value start_mark). Proof. unfold scan_tag_directive_value. kk. Qed.
Hint Resolve K_scan_tag_directive_value : kk.

Lemma K_scan_directive   : errs scanner_error scan_directive. Proof. unfold scan_directive. kk. Qed.
Hint Resolve K_scan_directive : kk.

Lemma K_fetch_directive   : errs scanner_error fetch_directive. Proof. unfold fetch_directive. kk. Qed.
Hint Resolve K_fetch_directive : kk.

Lemma K_scan_anchor  (alias : bool) : errs scanner_error (scan_anchor alias). Proof. unfold scan_anchor. kk. Qed.
Hint Resolve K_scan_anchor : kk.

Lemma K_scan_tag   : errs scanner_error scan_tag. Proof. unfold scan_tag. kk. Qed.
Hint Resolve K_scan_tag : kk.

Lemma K_scan_block_scalar_breaks  (ind : Z) (breaks : str) (start_mark : mark) (end_mark : mark) : errs scanner_error (scan_block_scalar_breaks ind breaks start_mark end_mark). Proof. unfold scan_block_scalar_breaks. kk. Qed.
Hint Resolve K_scan_block_scalar_breaks : kk.

Lemma K_scan_block_header_digit  (start_mark : mark) : errs scanner_error (scan_block_header_digit start_mark). Proof. unfold scan_block_header_digit. kk. Qed.
Hint Resolve K_scan_block_header_digit : kk.

Lemma K_scan_block_header  (start_mark : mark) : errs scanner_error (scan_block_header start_mark). Proof. unfold scan_block_header. kk. Qed.
Hint Resolve K_scan_block_header : kk.

Lemma K_block_scalar_lines  (literal : bool) (start_mark : mark) (ind : Z) (trailing_breaks : str) (end_mark : mark) : errs scanner_error (block_scalar_lines literal start_mark ind trailing_breaks end_mark). Proof. unfold block_scalar_lines. kk. Qed.
Hint Resolve K_block_scalar_lines : kk.

Lemma K_scan_block_scalar  (literal : bool) : errs scanner_error (scan_block_scalar literal). Proof. unfold scan_block_scalar. kk. Qed.
Hint Resolve K_scan_block_scalar : kk.

Lemma K_scan_escape  (start_mark : mark) (string : str) : errs scanner_error (scan_escape start_mark string). Proof. unfold scan_escape. kk. Qed.
Hint Resolve K_scan_escape : kk.

Lemma K_flow_scalar_text  (single : bool) (start_mark : mark) (string : str) : errs scanner_error (flow_scalar_text single start_mark string). Proof. unfold flow_scalar_text. kk. Qed.
Hint Resolve K_flow_scalar_text : kk.

Lemma K_flow_scalar_blanks  (leading_break : str) (trailing_breaks : str) (whitespaces : str) (leading_blanks : bool) : errs scanner_error (flow_scalar_blanks leading_break trailing_breaks whitespaces leading_blanks). Proof. unfold flow_scalar_blanks. kk. Qed.
Hint Resolve K_flow_scalar_blanks : kk.

Lemma K_scan_flow_scalar  (single : bool) : errs scanner_error (scan_flow_scalar single). Proof. unfold scan_flow_scalar. kk. Qed.
Hint Resolve K_scan_flow_scalar : kk.

Lemma K_plain_text  (start_mark : mark) (p : plain_st) : errs scanner_error (plain_text start_mark p). Proof. unfold plain_text. kk. Qed.
Hint Resolve K_plain_text : kk.

Lemma K_plain_blanks  (start_mark : mark) (ind : Z) (p : plain_st) : errs scanner_error (plain_blanks start_mark ind p). Proof. unfold plain_blanks. kk. Qed.
Hint Resolve K_plain_blanks : kk.

Lemma K_scan_plain_scalar   : errs scanner_error scan_plain_scalar. Proof. unfold scan_plain_scalar. kk. Qed.
Hint Resolve K_scan_plain_scalar : kk.

Lemma K_push_scanned (m : M sst token) : errs scanner_error m -> errs scanner_error (push_scanned m). Proof. intros; unfold push_scanned; kk; assumption. Qed.
Hint Extern 2 (errs scanner_error (push_scanned _)) => (apply K_push_scanned; solve [kk]) : kk.

Lemma K_fetch_anchor  (alias : bool) : errs scanner_error (fetch_anchor alias). Proof. unfold fetch_anchor. kk. Qed.
Hint Resolve K_fetch_anchor : kk.

Lemma K_fetch_tag   : errs scanner_error fetch_tag. Proof. unfold fetch_tag. kk. Qed.
Hint Resolve K_fetch_tag : kk.

Lemma K_fetch_block_scalar  (literal : bool) : errs scanner_error (fetch_block_scalar literal). Proof. unfold fetch_block_scalar. kk. Qed.
Hint Resolve K_fetch_block_scalar : kk.

Lemma K_fetch_flow_scalar  (single : bool) : errs scanner_error (fetch_flow_scalar single). Proof. unfold fetch_flow_scalar. kk. Qed.
Hint Resolve K_fetch_flow_scalar : kk.

Lemma K_fetch_plain_scalar   : errs scanner_error fetch_plain_scalar. Proof. unfold fetch_plain_scalar. kk. Qed.
Hint Resolve K_fetch_plain_scalar : kk.

Lemma K_fetch_next_token   : errs scanner_error fetch_next_token. Proof. unfold fetch_next_token. kk. Qed.
Hint Resolve K_fetch_next_token : kk.

Lemma K_fetch_more_tokens   : errs scanner_error fetch_more_tokens. Proof. unfold fetch_more_tokens. kk. Qed.
Hint Resolve K_fetch_more_tokens : kk.

Lemma K_scan   : errs scanner_error scan. Proof. unfold scan. kk. Qed.
Hint Resolve K_scan : kk.

Lemma K_scanner_next   : errs scanner_error scanner_next. Proof. unfold scanner_next. kk. Qed.
Hint Resolve K_scanner_next : kk.

Lemma K_peek   : errs scanner_error peek. Proof. unfold peek. kk. Qed.
Hint Resolve K_peek : kk.

Lemma K_set_front  (d : token_data) : errs scanner_error (set_front d). Proof. unfold set_front. kk. Qed.
Hint Resolve K_set_front : kk.

Lemma K_skip_token   : errs scanner_error skip_token. Proof. unfold skip_token. kk. Qed.
Hint Resolve K_skip_token : kk.


Lemma K_on_sc {A} (m : M sst A) : errs scanner_error m -> errs parser_error (on_sc m).
Proof. intros H p e p' X. unfold on_sc in X. destruct (m (sc p)) as [r s1] eqn:E. injection X as -> _. apply scanner_parser. exact (H _ _ _ E). Qed.
Hint Extern 2 (errs parser_error (on_sc _)) => (apply K_on_sc; solve [kk]) : kk.


(** ** The parser *)

Lemma K_parser_reset   : errs parser_error parser_reset. Proof. unfold parser_reset. kk. Qed.
Hint Resolve K_parser_reset : kk.

Lemma K_parser_set_input i : errs parser_error (parser_set_input i). Proof. unfold parser_set_input. apply K_on_sc. unfold set_input. direct. Qed.

Lemma K_parser_set_encoding e : errs parser_error (parser_set_encoding e). Proof. unfold parser_set_encoding. apply K_on_sc. unfold set_encoding. direct. Qed.

Lemma K_ppeek   : errs parser_error ppeek. Proof. unfold ppeek. kk. Qed.
Hint Resolve K_ppeek : kk.

Lemma K_pskip   : errs parser_error pskip. Proof. unfold pskip. kk. Qed.
Hint Resolve K_pskip : kk.

Lemma K_push_state  (x : pstate) : errs parser_error (push_state x). Proof. unfold push_state. kk. Qed.
Hint Resolve K_push_state : kk.

Lemma K_goto  (x : pstate) : errs parser_error (goto x). Proof. unfold goto. kk. Qed.
Hint Resolve K_goto : kk.

Lemma K_pop_state   : errs parser_error pop_state. Proof. unfold pop_state. kk. Qed.
Hint Resolve K_pop_state : kk.

Lemma K_push_mark  (m : mark) : errs parser_error (push_mark m). Proof. unfold push_mark. kk. Qed.
Hint Resolve K_push_mark : kk.

Lemma K_pop_mark   : errs parser_error pop_mark. Proof. unfold pop_mark. kk. Qed.
Hint Resolve K_pop_mark : kk.

Lemma K_drop_mark   : errs parser_error drop_mark. Proof. unfold drop_mark. kk. Qed.
Hint Resolve K_drop_mark : kk.

Lemma K_append_tag_directive  (value : tag_directive) (allow_duplicates : bool) (m : mark) : errs parser_error (append_tag_directive value allow_duplicates m). Proof. unfold append_tag_directive. kk. Qed.
Hint Resolve K_append_tag_directive : kk.

Lemma K_directives_loop   : errs parser_error directives_loop. Proof. unfold directives_loop. kk. Qed.
Hint Resolve K_directives_loop : kk.

Lemma K_process_directives   : errs parser_error process_directives. Proof. unfold process_directives. kk. Qed.
Hint Resolve K_process_directives : kk.

Lemma K_parse_stream_start   : errs parser_error parse_stream_start. Proof. unfold parse_stream_start. kk. Qed.
Hint Resolve K_parse_stream_start : kk.

Lemma K_skip_document_ends   : errs parser_error skip_document_ends. Proof. unfold skip_document_ends. kk. Qed.
Hint Resolve K_skip_document_ends : kk.

Lemma K_parse_document_start  (implicit : bool) : errs parser_error (parse_document_start implicit). Proof. unfold parse_document_start. kk. Qed.
Hint Resolve K_parse_document_start : kk.

Lemma K_parse_properties  (t : token) : errs parser_error (parse_properties t). Proof. unfold parse_properties. kk. Qed.
Hint Resolve K_parse_properties : kk.

Lemma K_resolve_tag h a b : errs parser_error (resolve_tag h a b). Proof. unfold resolve_tag. kk. Qed.
Hint Resolve K_resolve_tag : kk.
Lemma K_parse_node_content (block indentless_sequence : bool) (t : token) : errs parser_error (parse_node_content block indentless_sequence t). Proof. unfold parse_node_content. kk. Qed.
Hint Resolve K_parse_node_content : kk.

Lemma K_parse_node  (block : bool) (indentless_sequence : bool) : errs parser_error (parse_node block indentless_sequence). Proof. unfold parse_node. kk. Qed.
Hint Resolve K_parse_node : kk.

Lemma K_parse_document_content   : errs parser_error parse_document_content. Proof. unfold parse_document_content. kk. Qed.
Hint Resolve K_parse_document_content : kk.

Lemma K_parse_document_end   : errs parser_error parse_document_end. Proof. unfold parse_document_end. kk. Qed.
Hint Resolve K_parse_document_end : kk.

Lemma K_enter_collection  (first : bool) : errs parser_error (enter_collection first). Proof. unfold enter_collection. kk. Qed.
Hint Resolve K_enter_collection : kk.

Lemma K_leave_collection  (d : event_data) (t : token) : errs parser_error (leave_collection d t). Proof. unfold leave_collection. kk. Qed.
Hint Resolve K_leave_collection : kk.

Lemma K_collection_error context problem t : problem <> ""%string -> errs parser_error (collection_error context problem t). Proof. intros; unfold collection_error; kk. Qed.
Hint Extern 2 (errs parser_error (collection_error _ _ _)) => (apply K_collection_error; discriminate) : kk.

Lemma K_parse_block_sequence_entry  (first : bool) : errs parser_error (parse_block_sequence_entry first). Proof. unfold parse_block_sequence_entry. kk. Qed.
Hint Resolve K_parse_block_sequence_entry : kk.

Lemma K_parse_indentless_sequence_entry   : errs parser_error parse_indentless_sequence_entry. Proof. unfold parse_indentless_sequence_entry. kk. Qed.
Hint Resolve K_parse_indentless_sequence_entry : kk.

Lemma K_parse_block_mapping_key  (first : bool) : errs parser_error (parse_block_mapping_key first). Proof. unfold parse_block_mapping_key. kk. Qed.
Hint Resolve K_parse_block_mapping_key : kk.

Lemma K_parse_block_mapping_value   : errs parser_error parse_block_mapping_value. Proof. unfold parse_block_mapping_value. kk. Qed.
Hint Resolve K_parse_block_mapping_value : kk.

Lemma K_flow_separator first context problem t : problem <> ""%string -> errs parser_error (flow_separator first context problem t). Proof. intros; unfold flow_separator; kk. Qed.
Hint Extern 2 (errs parser_error (flow_separator _ _ _ _)) => (apply K_flow_separator; discriminate) : kk.

Lemma K_parse_flow_sequence_entry  (first : bool) : errs parser_error (parse_flow_sequence_entry first). Proof. unfold parse_flow_sequence_entry. kk. Qed.
Hint Resolve K_parse_flow_sequence_entry : kk.

Lemma K_parse_flow_sequence_entry_mapping_key   : errs parser_error parse_flow_sequence_entry_mapping_key. Proof. unfold parse_flow_sequence_entry_mapping_key. kk. Qed.
Hint Resolve K_parse_flow_sequence_entry_mapping_key : kk.

Lemma K_parse_flow_sequence_entry_mapping_value   : errs parser_error parse_flow_sequence_entry_mapping_value. Proof. unfold parse_flow_sequence_entry_mapping_value. kk. Qed.
Hint Resolve K_parse_flow_sequence_entry_mapping_value : kk.

Lemma K_parse_flow_sequence_entry_mapping_end   : errs parser_error parse_flow_sequence_entry_mapping_end. Proof. unfold parse_flow_sequence_entry_mapping_end. kk. Qed.
Hint Resolve K_parse_flow_sequence_entry_mapping_end : kk.

Lemma K_parse_flow_mapping_key  (first : bool) : errs parser_error (parse_flow_mapping_key first). Proof. unfold parse_flow_mapping_key. kk. Qed.
Hint Resolve K_parse_flow_mapping_key : kk.

Lemma K_parse_flow_mapping_value  (empty : bool) : errs parser_error (parse_flow_mapping_value empty). Proof. unfold parse_flow_mapping_value. kk. Qed.
Hint Resolve K_parse_flow_mapping_value : kk.

Lemma K_state_machine   : errs parser_error state_machine. Proof. unfold state_machine. kk. Qed.
Hint Resolve K_state_machine : kk.

Lemma K_parse   : errs parser_error parse. Proof. unfold parse. kk. Qed.
Hint Resolve K_parse : kk.

Lemma K_parser_next   : errs parser_error parser_next. Proof. unfold parser_next. kk. Qed.
Hint Resolve K_parser_next : kk.


Lemma K_on_parser {A} (m : M pst A) : errs parser_error m -> errs loader_error (on_parser m).
Proof. intros H p e p' X. unfold on_parser in X. destruct (m (l_parser p)) as [r s1] eqn:E. injection X as -> _. apply parser_loader. exact (H _ _ _ E). Qed.
Hint Extern 2 (errs loader_error (on_parser _)) => (apply K_on_parser; first [solve [eauto 2 with kk]|solve [kk]]) : kk.


(** ** The loader *)

Lemma K_register_anchor  (index : Z) (anchor : option str) : errs loader_error (register_anchor index anchor). Proof. unfold register_anchor. kk. Qed.
Hint Resolve K_register_anchor : kk.

Lemma K_load_node_add  (index : Z) : errs loader_error (load_node_add index). Proof. unfold load_node_add. kk. Qed.
Hint Resolve K_load_node_add : kk.

Lemma K_load_alias  (anchor : str) (m : mark) : errs loader_error (load_alias anchor m). Proof. unfold load_alias. kk. Qed.
Hint Resolve K_load_alias : kk.

Lemma K_load_push  (n : node) (anchor : option str) : errs loader_error (load_push n anchor). Proof. unfold load_push. kk. Qed.
Hint Resolve K_load_push : kk.

Lemma K_push_ctx  (i : Z) : errs loader_error (push_ctx i). Proof. unfold push_ctx. kk. Qed.
Hint Resolve K_push_ctx : kk.

Lemma K_load_end  (seq : bool) (m : mark) : errs loader_error (load_end seq m). Proof. unfold load_end. kk. Qed.
Hint Resolve K_load_end : kk.

Lemma K_load_event  (e : event) : errs loader_error (load_event e). Proof. unfold load_event. kk. Qed.
Hint Resolve K_load_event : kk.

Lemma K_load_nodes   : errs loader_error load_nodes. Proof. unfold load_nodes. kk. Qed.
Hint Resolve K_load_nodes : kk.

Lemma K_load_document  (e : event) : errs loader_error (load_document e). Proof. unfold load_document. kk. Qed.
Hint Resolve K_load_document : kk.

Lemma K_load_rest : errs loader_error load_rest.
Proof.
  intros p e p' H. unfold load_rest in H. destruct (stream_end_produced (sc p)); [discriminate H|].
  destruct (parse p) as [[v|x|q|] p1] eqn:E; try discriminate H.
  - destruct (load_document v (Mk_lst p1 (document_new None [] false false) [])) as [[u|x|q|] l] eqn:L; destruct (e_data v); try discriminate H; injection H as <- _; exact (K_load_document v _ _ _ L).
  - injection H as <- _. apply parser_loader. exact (K_parse _ _ _ E).
Qed.
Hint Resolve K_load_rest : kk.

Lemma K_load : errs loader_error load.
Proof.
  intros p e p' H. unfold load in H. destruct (stream_start_produced (sc p)); [exact (K_load_rest _ _ _ H)|].
  destruct (parse p) as [[v|x|q|] p1] eqn:E; try discriminate H.
  - destruct (e_data v); try discriminate H. exact (K_load_rest _ _ _ H).
  - injection H as <- _. apply parser_loader. exact (K_parse _ _ _ E).
Qed.
Hint Resolve K_load : kk.


(** ** The emitter *)

Lemma K_write_all_m  (l : list byte) : errs emitter_errors (write_all_m l). Proof. unfold write_all_m. kk. Qed.
Hint Resolve K_write_all_m : kk.

Lemma K_flush   : errs emitter_errors flush. Proof. unfold flush. kk. Qed.
Hint Resolve K_flush : kk.

Lemma K_flush_if_needed   : errs emitter_errors flush_if_needed. Proof. unfold flush_if_needed. kk. Qed.
Hint Resolve K_flush_if_needed : kk.

Lemma K_out  (l : list char) : errs emitter_errors (out l). Proof. unfold out. kk. Qed.
Hint Resolve K_out : kk.

Lemma K_add_column  (n : Z) : errs emitter_errors (add_column n). Proof. unfold add_column. kk. Qed.
Hint Resolve K_add_column : kk.

Lemma K_new_line   : errs emitter_errors new_line. Proof. unfold new_line. kk. Qed.
Hint Resolve K_new_line : kk.

Lemma K_put  (c : char) : errs emitter_errors (put c). Proof. unfold put. kk. Qed.
Hint Resolve K_put : kk.

Lemma K_put_break   : errs emitter_errors put_break. Proof. unfold put_break. kk. Qed.
Hint Resolve K_put_break : kk.

Lemma K_write_str  (l : str) : errs emitter_errors (write_str l). Proof. unfold write_str. kk. Qed.
Hint Resolve K_write_str : kk.

Lemma K_write_char  (c : char) : errs emitter_errors (write_char c). Proof. unfold write_char. kk. Qed.
Hint Resolve K_write_char : kk.

Lemma K_write_break  (c : char) : errs emitter_errors (write_break c). Proof. unfold write_break. kk. Qed.
Hint Resolve K_write_break : kk.

Lemma K_needs_mode_events   : errs emitter_errors needs_mode_events. Proof. unfold needs_mode_events. kk. Qed.
Hint Resolve K_needs_mode_events : kk.

Lemma K_em_append_tag_directive  (value : tag_directive) (allow_duplicates : bool) : errs emitter_errors (em_append_tag_directive value allow_duplicates). Proof. unfold em_append_tag_directive. kk. Qed.
Hint Resolve K_em_append_tag_directive : kk.

Lemma K_increase_indent  (flow : bool) (indentless : bool) : errs emitter_errors (increase_indent flow indentless). Proof. unfold increase_indent. kk. Qed.
Hint Resolve K_increase_indent : kk.

Lemma K_pop_indent   : errs emitter_errors pop_indent. Proof. unfold pop_indent. kk. Qed.
Hint Resolve K_pop_indent : kk.

Lemma K_pop_estate   : errs emitter_errors pop_estate. Proof. unfold pop_estate. kk. Qed.
Hint Resolve K_pop_estate : kk.

Lemma K_push_estate  (x : estate) : errs emitter_errors (push_estate x). Proof. unfold push_estate. kk. Qed.
Hint Resolve K_push_estate : kk.

Lemma K_goto_estate  (x : estate) : errs emitter_errors (goto_estate x). Proof. unfold goto_estate. kk. Qed.
Hint Resolve K_goto_estate : kk.

Lemma K_set_ws  (w : bool) (i : bool) : errs emitter_errors (set_ws w i). Proof. unfold set_ws. kk. Qed.
Hint Resolve K_set_ws : kk.

Lemma K_set_indention  (i : bool) : errs emitter_errors (set_indention i). Proof. unfold set_indention. kk. Qed.
Hint Resolve K_set_indention : kk.

Lemma K_write_bom   : errs emitter_errors write_bom. Proof. unfold write_bom. kk. Qed.
Hint Resolve K_write_bom : kk.

Lemma K_put_spaces  (n : nat) : errs emitter_errors (put_spaces n). Proof. induction n; intros; cbn [put_spaces]; kk. Qed.
Hint Resolve K_put_spaces : kk.

Lemma K_write_indent   : errs emitter_errors write_indent. Proof. unfold write_indent. kk. Qed.
Hint Resolve K_write_indent : kk.

Lemma K_write_indicator  (ind : str) (need_whitespace : bool) (is_whitespace : bool) (is_indention : bool) : errs emitter_errors (write_indicator ind need_whitespace is_whitespace is_indention). Proof. unfold write_indicator. kk. Qed.
Hint Resolve K_write_indicator : kk.

Lemma K_write_anchor  (v : str) : errs emitter_errors (write_anchor v). Proof. unfold write_anchor. kk. Qed.
Hint Resolve K_write_anchor : kk.

Lemma K_write_tag_handle  (v : str) : errs emitter_errors (write_tag_handle v). Proof. unfold write_tag_handle. kk. Qed.
Hint Resolve K_write_tag_handle : kk.

Lemma K_iterM {A} (f : A -> M est unit) (l : list A) : (forall a, errs emitter_errors (f a)) -> errs emitter_errors (iterM f l). Proof. intros Hf; induction l; cbn [iterM]; kk; apply Hf. Qed.
Hint Extern 2 (errs emitter_errors (iterM _ _)) => (apply K_iterM; intros ?; kk) : kk.

Lemma K_write_tag_content  (v : str) (need_whitespace : bool) : errs emitter_errors (write_tag_content v need_whitespace). Proof. unfold write_tag_content. kk. Qed.
Hint Resolve K_write_tag_content : kk.

Lemma K_plain_loop  (allow_breaks : bool) (spaces : bool) (breaks : bool) (l : str) : errs emitter_errors (plain_loop allow_breaks spaces breaks l). Proof. revert allow_breaks spaces breaks. induction l; intros; cbn [plain_loop]; kk. Qed.
Hint Resolve K_plain_loop : kk.

Lemma K_write_plain_scalar  (v : str) (allow_breaks : bool) : errs emitter_errors (write_plain_scalar v allow_breaks). Proof. unfold write_plain_scalar. kk. Qed.
Hint Resolve K_write_plain_scalar : kk.

Lemma K_single_loop  (allow_breaks : bool) (spaces : bool) (breaks : bool) (is_first : bool) (l : str) : errs emitter_errors (single_loop allow_breaks spaces breaks is_first l). Proof. revert allow_breaks spaces breaks is_first. induction l; intros; cbn [single_loop]; kk. Qed.
Hint Resolve K_single_loop : kk.

Lemma K_write_single_quoted_scalar  (v : str) (allow_breaks : bool) : errs emitter_errors (write_single_quoted_scalar v allow_breaks). Proof. unfold write_single_quoted_scalar. kk. Qed.
Hint Resolve K_write_single_quoted_scalar : kk.

Lemma K_double_loop  (allow_breaks : bool) (spaces : bool) (first : bool) (l : str) : errs emitter_errors (double_loop allow_breaks spaces first l). Proof. revert allow_breaks spaces first. induction l; intros; cbn [double_loop]; kk. Qed.
Hint Resolve K_double_loop : kk.

Lemma K_write_double_quoted_scalar  (v : str) (allow_breaks : bool) : errs emitter_errors (write_double_quoted_scalar v allow_breaks). Proof. unfold write_double_quoted_scalar. kk. Qed.
Hint Resolve K_write_double_quoted_scalar : kk.

Lemma K_write_block_scalar_hints  (v : str) : errs emitter_errors (write_block_scalar_hints v). Proof. unfold write_block_scalar_hints. kk. Qed.
Hint Resolve K_write_block_scalar_hints : kk.

Lemma K_literal_loop  (breaks : bool) (l : str) : errs emitter_errors (literal_loop breaks l). Proof. revert breaks. induction l; intros; cbn [literal_loop]; kk. Qed.
Hint Resolve K_literal_loop : kk.

Lemma K_write_literal_scalar  (v : str) : errs emitter_errors (write_literal_scalar v). Proof. unfold write_literal_scalar. kk. Qed.
Hint Resolve K_write_literal_scalar : kk.

Lemma K_folded_loop  (breaks : bool) (leading_spaces : bool) (l : str) : errs emitter_errors (folded_loop breaks leading_spaces l). Proof. revert breaks leading_spaces. induction l; intros; cbn [folded_loop]; kk. Qed.
Hint Resolve K_folded_loop : kk.

Lemma K_write_folded_scalar  (v : str) : errs emitter_errors (write_folded_scalar v). Proof. unfold write_folded_scalar. kk. Qed.
Hint Resolve K_write_folded_scalar : kk.

Lemma K_analyze_version_directive  (v : version_directive) : errs emitter_errors (analyze_version_directive v). Proof. unfold analyze_version_directive. kk. Qed.
Hint Resolve K_analyze_version_directive : kk.

Lemma K_analyze_tag_directive  (t : tag_directive) : errs emitter_errors (analyze_tag_directive t). Proof. unfold analyze_tag_directive. kk. Qed.
Hint Resolve K_analyze_tag_directive : kk.

Lemma K_analyze_anchor  (anchor : str) (alias : bool) : errs emitter_errors (analyze_anchor anchor alias). Proof. unfold analyze_anchor. kk. Qed.
Hint Resolve K_analyze_anchor : kk.

Lemma K_analyze_tag_loop  (tag : str) (tds : list tag_directive) : errs emitter_errors (analyze_tag_loop tag tds). Proof. revert tag. induction tds; intros; cbn [analyze_tag_loop]; kk. Qed.
Hint Resolve K_analyze_tag_loop : kk.

Lemma K_analyze_tag  (tag : str) (tds : list tag_directive) : errs emitter_errors (analyze_tag tag tds). Proof. unfold analyze_tag. kk. Qed.
Hint Resolve K_analyze_tag : kk.

Lemma K_analyze_opt_anchor  (a : option str) : errs emitter_errors (analyze_opt_anchor a). Proof. unfold analyze_opt_anchor. kk. Qed.
Hint Resolve K_analyze_opt_anchor : kk.

Lemma K_analyze_opt_tag  (t : option str) (cond : bool) (tds : list tag_directive) : errs emitter_errors (analyze_opt_tag t cond tds). Proof. unfold analyze_opt_tag. kk. Qed.
Hint Resolve K_analyze_opt_tag : kk.

Lemma K_analyze_event  (e : event) (tds : list tag_directive) : errs emitter_errors (analyze_event e tds). Proof. unfold analyze_event. kk. Qed.
Hint Resolve K_analyze_event : kk.

Lemma K_check_simple_key  (e : event) (an : analysis) : errs emitter_errors (check_simple_key e an). Proof. unfold check_simple_key. kk. Qed.
Hint Resolve K_check_simple_key : kk.

Lemma K_process_scalar  (v : str) (style : scalar_style) : errs emitter_errors (process_scalar v style). Proof. unfold process_scalar. kk. Qed.
Hint Resolve K_process_scalar : kk.

Lemma K_select_scalar_style pi qi style sa tag : errs emitter_errors (select_scalar_style pi qi style sa tag). Proof. unfold select_scalar_style. kk. Qed.
Hint Resolve K_select_scalar_style : kk.
Lemma K_process_anchor a : errs emitter_errors (process_anchor a). Proof. unfold process_anchor. kk. Qed.
Hint Resolve K_process_anchor : kk.
Lemma K_process_tag t : errs emitter_errors (process_tag t). Proof. unfold process_tag. kk. Qed.
Hint Resolve K_process_tag : kk.
Lemma K_emit_alias an : errs emitter_errors (emit_alias an). Proof. unfold emit_alias. kk. Qed.
Hint Resolve K_emit_alias : kk.

Lemma K_emit_scalar  (pi : bool) (qi : bool) (style : scalar_style) (an : analysis) : errs emitter_errors (emit_scalar pi qi style an). Proof. unfold emit_scalar. kk. Qed.
Hint Resolve K_emit_scalar : kk.

Lemma K_emit_sequence_start  (e : event_data) (st : seq_style) (an : analysis) : errs emitter_errors (emit_sequence_start e st an). Proof. unfold emit_sequence_start. kk. Qed.
Hint Resolve K_emit_sequence_start : kk.

Lemma K_emit_mapping_start  (e : event_data) (st : map_style) (an : analysis) : errs emitter_errors (emit_mapping_start e st an). Proof. unfold emit_mapping_start. kk. Qed.
Hint Resolve K_emit_mapping_start : kk.

Lemma K_emit_node  (e : event) (root : bool) (sequence : bool) (mapping : bool) (simple_key : bool) (an : analysis) : errs emitter_errors (emit_node e root sequence mapping simple_key an). Proof. unfold emit_node. kk. Qed.
Hint Resolve K_emit_node : kk.

Lemma K_emit_stream_start  (e : event) : errs emitter_errors (emit_stream_start e). Proof. unfold emit_stream_start. kk. Qed.
Hint Resolve K_emit_stream_start : kk.

Lemma K_emit_document_start  (e : event) (first : bool) : errs emitter_errors (emit_document_start e first). Proof. unfold emit_document_start. kk. Qed.
Hint Resolve K_emit_document_start : kk.

Lemma K_emit_document_content  (e : event) (an : analysis) : errs emitter_errors (emit_document_content e an). Proof. unfold emit_document_content. kk. Qed.
Hint Resolve K_emit_document_content : kk.

Lemma K_emit_document_end  (e : event) : errs emitter_errors (emit_document_end e). Proof. unfold emit_document_end. kk. Qed.
Hint Resolve K_emit_document_end : kk.

Lemma K_add_flow_level  (n : Z) : errs emitter_errors (add_flow_level n). Proof. unfold add_flow_level. kk. Qed.
Hint Resolve K_add_flow_level : kk.

Lemma K_wrap_line   : errs emitter_errors wrap_line. Proof. unfold wrap_line. kk. Qed.
Hint Resolve K_wrap_line : kk.

Lemma K_close_flow  (first : bool) (closing : char) : errs emitter_errors (close_flow first closing). Proof. unfold close_flow. kk. Qed.
Hint Resolve K_close_flow : kk.

Lemma K_emit_flow_sequence_item  (e : event) (first : bool) (an : analysis) : errs emitter_errors (emit_flow_sequence_item e first an). Proof. unfold emit_flow_sequence_item. kk. Qed.
Hint Resolve K_emit_flow_sequence_item : kk.

Lemma K_emit_flow_mapping_key  (e : event) (first : bool) (an : analysis) : errs emitter_errors (emit_flow_mapping_key e first an). Proof. unfold emit_flow_mapping_key. kk. Qed.
Hint Resolve K_emit_flow_mapping_key : kk.

Lemma K_emit_flow_mapping_value  (e : event) (simple : bool) (an : analysis) : errs emitter_errors (emit_flow_mapping_value e simple an). Proof. unfold emit_flow_mapping_value. kk. Qed.
Hint Resolve K_emit_flow_mapping_value : kk.

Lemma K_emit_block_sequence_item  (e : event) (first : bool) (an : analysis) : errs emitter_errors (emit_block_sequence_item e first an). Proof. unfold emit_block_sequence_item. kk. Qed.
Hint Resolve K_emit_block_sequence_item : kk.

Lemma K_emit_block_mapping_key  (e : event) (first : bool) (an : analysis) : errs emitter_errors (emit_block_mapping_key e first an). Proof. unfold emit_block_mapping_key. kk. Qed.
Hint Resolve K_emit_block_mapping_key : kk.

Lemma K_emit_block_mapping_value  (e : event) (simple : bool) (an : analysis) : errs emitter_errors (emit_block_mapping_value e simple an). Proof. unfold emit_block_mapping_value. kk. Qed.
Hint Resolve K_emit_block_mapping_value : kk.

Lemma K_em_state_machine  (e : event) (an : analysis) : errs emitter_errors (em_state_machine e an). Proof. unfold em_state_machine. kk. Qed.
Hint Resolve K_em_state_machine : kk.

Lemma K_emit_one  (e : event) : errs emitter_errors (emit_one e). Proof. unfold emit_one. kk. Qed.
Hint Resolve K_emit_one : kk.

Lemma K_emit  (e : event) : errs emitter_errors (emit e). Proof. unfold emit. kk. Qed.
Hint Resolve K_emit : kk.

Lemma K_emitter_open   : errs emitter_errors emitter_open. Proof. unfold emitter_open. kk. Qed.
Hint Resolve K_emitter_open : kk.

Lemma K_emitter_close   : errs emitter_errors emitter_close. Proof. unfold emitter_close. kk. Qed.
Hint Resolve K_emitter_close : kk.

Lemma K_em_set_encoding  (e : encoding) : errs emitter_errors (em_set_encoding e). Proof. unfold em_set_encoding. kk. Qed.
Hint Resolve K_em_set_encoding : kk.

Lemma K_em_set_output_string   : errs emitter_errors em_set_output_string. Proof. unfold em_set_output_string. kk. Qed.
Hint Resolve K_em_set_output_string : kk.

Lemma K_em_set_output  (w : writer) : errs emitter_errors (em_set_output w). Proof. unfold em_set_output. kk. Qed.
Hint Resolve K_em_set_output : kk.

Lemma K_em_set_canonical  (b : bool) : errs emitter_errors (em_set_canonical b). Proof. unfold em_set_canonical. kk. Qed.
Hint Resolve K_em_set_canonical : kk.

Lemma K_em_set_indent  (i : Z) : errs emitter_errors (em_set_indent i). Proof. unfold em_set_indent. kk. Qed.
Hint Resolve K_em_set_indent : kk.

Lemma K_em_set_width  (w : Z) : errs emitter_errors (em_set_width w). Proof. unfold em_set_width. kk. Qed.
Hint Resolve K_em_set_width : kk.

Lemma K_em_set_unicode  (b : bool) : errs emitter_errors (em_set_unicode b). Proof. unfold em_set_unicode. kk. Qed.
Hint Resolve K_em_set_unicode : kk.

Lemma K_em_set_break  (b : line_break) : errs emitter_errors (em_set_break b). Proof. unfold em_set_break. kk. Qed.
Hint Resolve K_em_set_break : kk.

Lemma K_reset_anchors   : errs emitter_errors reset_anchors. Proof. unfold reset_anchors. kk. Qed.
Hint Resolve K_reset_anchors : kk.

Lemma K_get_anchors  (index : Z) : errs emitter_errors (get_anchors index). Proof. unfold get_anchors. kk. Qed.
Hint Resolve K_get_anchors : kk.

Lemma K_put_anchors  (index : Z) (a : anchors) : errs emitter_errors (put_anchors index a). Proof. unfold put_anchors. kk. Qed.
Hint Resolve K_put_anchors : kk.

Lemma K_anchor_node_sub  (index : Z) : errs emitter_errors (anchor_node_sub index). Proof. unfold anchor_node_sub. kk. Qed.
Hint Resolve K_anchor_node_sub : kk.


Lemma K_on_em {A} (m : M est A) : errs emitter_errors m -> errs emitter_errors (on_em m).
Proof. intros H p e p' X. unfold on_em in X. destruct (m _) as [r s1] eqn:E in X. injection X as -> _. exact (H _ _ _ E). Qed.
Hint Extern 2 (errs emitter_errors (on_em _)) => (apply K_on_em; first [solve [eauto 2 with kk]|solve [kk]]) : kk.


(** ** dump *)

Lemma K_iterD {S A} (f : A -> M S unit) (l : list A) : (forall a, errs emitter_errors (f a)) -> errs emitter_errors (iterD f l). Proof. intros Hf; induction l; cbn [iterD]; kk; apply Hf. Qed.
Hint Extern 2 (errs emitter_errors (iterD _ _)) => (apply K_iterD; intros ?; kk) : kk.

Lemma K_anchor_node (nodes : list node) (index : Z) : errs emitter_errors (anchor_node nodes index). Proof. unfold anchor_node. kk. Qed.
Hint Resolve K_anchor_node : kk.

Lemma K_emit_data  (x : event_data) : errs emitter_errors (emit_data x). Proof. unfold emit_data. kk. Qed.
Hint Resolve K_emit_data : kk.

Lemma K_dump_node  (fuel : nat) (index : Z) : errs emitter_errors (dump_node fuel index). Proof. revert index. induction fuel; intros; cbn [dump_node]; kk. Qed.
Hint Resolve K_dump_node : kk.

Lemma K_run_dump (nodes : list node) (m : M dst unit) : errs emitter_errors m -> errs emitter_errors (run_dump nodes m). Proof. intros Hm s e s' H. unfold run_dump in H. destruct (m _) as [r d] eqn:E in H. injection H as -> _. exact (Hm _ _ _ E). Qed.
Hint Extern 2 (errs emitter_errors (run_dump _ _)) => (apply K_run_dump; solve [kk]) : kk.

Lemma K_dump_open : errs emitter_errors (fun s : est => match emitter_open s with (Err x, s') => ((reset_anchors ;; fail x) : M est unit) s' | r => r end).
Proof.
  intros s e s' H. destruct (emitter_open s) as [[u|x|q|] s1] eqn:E; try discriminate H.
  assert (X : errs emitter_errors ((reset_anchors ;; fail x) : M est unit)) by (apply K_bind; [apply K_reset_anchors|intros _; apply K_fail; exact (K_emitter_open _ _ _ E)]). exact (X _ _ _ H).
Qed.
Lemma K_dump (d : document) : errs emitter_errors (dump d).
Proof. unfold dump. apply K_bind; [apply K_get|intros s0]. apply K_bind; [destruct (em_opened s0); [apply K_ret|exact K_dump_open]|intros _]. kk. Qed.
