(** Prop_Findings.v -- properties the code does not have.  Each theorem negates the property (or a
    consequence of it) as a user would expect it, by exhibiting an input; the panics show that the
    exceptions listed in C04 and C11 are reachable. *)
From Verif Require Import Base Utf Chars State Reader Scanner Parser EState Emitter Document Api Spec_Tokens Spec_Scanner.

(** ** C04: the three panics of the scanner are reachable in release builds. *)
Definition panics_on (bytes : list byte) (p : panic) : Prop :=
  exists n s, calls_ok scanner_next n (scanner_on false (slice_source bytes)) = (s, Some (Panic p), snd (calls_ok scanner_next n (scanner_on false (slice_source bytes)))).
Theorem C04_panic_tag_comma : panics_on (lit "[!a,b]") PTagTodo.
Proof. exists 8%nat. eexists. vm_compute. reflexivity. Qed.
Theorem C04_panic_escape_eof : panics_on (34 :: lit "\") PEscapeUnwrap.
Proof. exists 8%nat. eexists. vm_compute. reflexivity. Qed.
Theorem C04_panic_block_scalar_eof : panics_on (lit "|" ++ [10] ++ lit " a") PReadLineBreak.
Proof. exists 8%nat. eexists. vm_compute. reflexivity. Qed.

(** ** C38: UTF-16 input is not decoded exactly (reader.rs:178-196 counts units, not bytes). *)
Definition utf16_bytes (be : bool) (tx : str) : list byte :=
  flat_map (fun u => if be then [u / 256; u mod 256] else [u mod 256; u / 256]) (flat_map encode_utf16_char (65279 :: tx)).
Theorem C38_utf16_input_refuted :
  ~ (forall be tx, Forall yaml_char tx -> exists s',
       update_buffer (S (length tx)) (scanner_on false (slice_source (utf16_bytes be tx))) = (Ok tt, s') /\ buffer s' = tx).
Proof.
  intros H. assert (Ha : Forall yaml_char [97; 98]) by (repeat apply Forall_cons; try apply Forall_nil; unfold yaml_char; lia).
  destruct (H false [97; 98] Ha) as (s' & E & Hb).
  vm_compute in E. injection E as <-. clear H Ha. vm_compute in Hb. discriminate.
Qed.
(** Even at the level of tokens: the stream "ab", complete and well formed, is an I/O error. *)
Theorem C38_utf16_tokens_refuted :
  In (Err (EIo UnexpectedEof)) (fst (calls scanner_next 3 (scanner_on false (slice_source (utf16_bytes false (lit "ab")))))).
Proof. vm_compute. right. left. reflexivity. Qed.

(** ** C01: two restrictions of the decoding theorems are necessary. *)
(** A text that starts with a character whose first byte is 0xEF is rejected. *)
Theorem C01_first_byte_EF_refuted :
  ~ (forall tx, Forall yaml_char tx -> exists s',
       update_buffer (S (length tx)) (scanner_on false (slice_source (encode_utf8 tx))) = (Ok tt, s') /\ buffer s' = tx).
Proof.
  intros H. assert (Ha : Forall yaml_char [65281]) by (repeat apply Forall_cons; try apply Forall_nil; unfold yaml_char; lia).
  destruct (H [65281] Ha) as (s' & E & _). vm_compute in E. discriminate.
Qed.
(** Interrupted on the very first read is reported instead of being retried. *)
Theorem C01_first_read_interrupted_refuted :
  fst (update_buffer 1 (scanner_on false (Mk_source [] [SIntr; SData (lit "a")]))) = Err (EIo Interrupted).
Proof. reflexivity. Qed.

(** ** C34: folded scalars do not round-trip. *)
Definition one_scalar (v : str) (st : scalar_style) : list event :=
  map event_new [EvStreamStart Utf8; EvDocumentStart None [] false; EvScalar None None v true true st; EvDocumentEnd true; EvStreamEnd].
Definition scalars_read (bytes : list byte) : list token_data :=
  filter (fun d => match d with TScalar _ _ => true | _ => false end)
    (map t_data (tokens_of (fst (calls scanner_next 20 (scanner_on false (slice_source bytes)))))).
Theorem C34_folded_round_trip_refuted :
  ~ (forall v, Forall yaml_char v -> sa_block_allowed (analyze_scalar true v) = true -> exists s,
       emit_all (one_scalar v SFolded) (emitter_on []) = (Ok tt, s) /\ scalars_read (output s) = [TScalar v SFolded]).
Proof.
  intros H. set (v := [97; 10; 98; 10]). destruct (H v) as (s & E & Hs).
  - unfold v. repeat apply Forall_cons; try apply Forall_nil; unfold yaml_char; lia.
  - reflexivity.
  - vm_compute in E. injection E as <-. vm_compute in Hs. discriminate.
Qed.

(** ** C11/C16: after its first error the parser can panic. *)
Theorem C11_panic_after_error :
  In (Panic PMarksEmpty) (fst (calls parse 8 (parser_on false (slice_source (lit "[a}"))))).
Proof. vm_compute. tauto. Qed.
(** ** C18: loading again after a composer error can panic. *)
Theorem C18_load_after_error_panics :
  In (Panic PExpectedDocumentStart) (fst (calls load 2 (parser_on false (slice_source (lit "[*a, b]"))))).
Proof. vm_compute. tauto. Qed.
(** ** C23: dumping a document with an alias to a node that was emitted before can panic. *)
Theorem C23_dump_alias_refuted :
  match load (parser_on false (slice_source (lit "a: [&x 1, *x]" ++ [10]))) with
  | (Ok d, _) => fst (dump d (emitter_on [])) = Panic PAliasUnwrap
  | _ => False
  end.
Proof. vm_compute. reflexivity. Qed.
(** ** C25: an empty plain root scalar in an implicit document is accepted, but the text written
    contains no document. *)
Theorem C25_empty_root_scalar :
  let r := emit_all (map event_new [EvStreamStart Utf8; EvDocumentStart None [] true; EvScalar None None [] true true SPlain; EvDocumentEnd true; EvStreamEnd])
    (emitter_on []) in fst r = Ok tt /\
  map t_data (tokens_of (fst (calls scanner_next 9 (scanner_on false (slice_source (output (snd r))))))) = [TStreamStart Utf8; TStreamEnd].
Proof. vm_compute. split; reflexivity. Qed.
(** ** C15: a percent-encoded non-ASCII character of a tag is decoded to its bytes, not to itself. *)
Theorem C15_tag_escape_refuted :
  In (TTag [33] [195; 169]) (map t_data (tokens_of (fst (calls scanner_next 6 (scanner_on false (slice_source (lit "!%C3%A9 x"))))))).
Proof. vm_compute. tauto. Qed.
Print Assumptions C04_panic_tag_comma.
Print Assumptions C38_utf16_input_refuted.
Print Assumptions C01_first_byte_EF_refuted.
Print Assumptions C34_folded_round_trip_refuted.
Print Assumptions C11_panic_after_error.
Print Assumptions C18_load_after_error_panics.
Print Assumptions C23_dump_alias_refuted.

(** ** C25: a tag with a non-ASCII character can panic the emitter (it is cut inside the character
    by the length of the prefix "!"). *)
Theorem C25_non_ascii_tag_panics :
  fst (emit_all (map event_new [EvStreamStart Utf8; EvDocumentStart None [] true; EvScalar None (Some [233]) (lit "x") false false SPlain; EvDocumentEnd true])
    (emitter_on [])) = Panic PCharBoundary.
Proof. vm_compute. reflexivity. Qed.
(** ** C25: after an error for an event out of place, later events can panic the emitter. *)
Fixpoint outcomes (l : list event) (s : est) : list (res unit) :=
  match l with [] => [] | e :: r => let (o, s') := emit e s in o :: outcomes r s' end.
Theorem C25_panic_after_error :
  In (Panic PIndentsEmpty) (outcomes (map event_new [EvStreamStart Utf8; EvDocumentStart None [] true; EvSequenceStart None None true SeqBlock;
    EvScalar None None (lit "x") true true SPlain; EvDocumentEnd true; EvSequenceEnd; EvSequenceEnd]) (emitter_on [])).
Proof. vm_compute. tauto. Qed.
(** ** C26: flush before the first event panics when no encoding has been set. *)
Theorem C26_flush_first_panics : fst (flush (emitter_on [])) = Panic PNoEncoding.
Proof. reflexivity. Qed.
Print Assumptions C25_non_ascii_tag_panics.
Print Assumptions C25_panic_after_error.
(** ** C46, C49: a text with a verbatim tag that contains a comma is parsed, and its copy is not: the
    emitter abbreviates the tag to "!!a,b", which the scanner refuses (this is why [abbreviable] is
    asked for). *)
Definition all_of {A} (l : list (res A)) : list A := flat_map (fun r => match r with Ok x => [x] | _ => [] end) l.
Definition copy_of (bytes : list byte) : list byte :=
  output (snd (emit_all (flat_map (fun o => match o with Some e => [e] | None => [] end) (all_of (fst (calls parser_next 7 (parser_on true (slice_source bytes)))))) (emitter_on []))).
Theorem C49_comma_in_tag_refuted :
  let bytes := lit "!<tag:yaml.org,2002:a,b> x" ++ [10] in
  existsb (fun r => match r with Ok _ => false | _ => true end) (fst (calls parser_next 7 (parser_on true (slice_source bytes)))) = false /\
  copy_of bytes = lit "!!a,b x" ++ [10] /\
  exists x, In (Err x) (fst (calls parser_next 7 (parser_on true (slice_source (copy_of bytes))))).
Proof. vm_compute. split; [reflexivity|]. split; [reflexivity|]. eexists. right. left. reflexivity. Qed.
Print Assumptions C49_comma_in_tag_refuted.
