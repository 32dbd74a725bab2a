(** Spec_Emitter.v -- the vocabulary of the emitter properties: settings, sessions, and what the
    user observes of them. *)
From Verif Require Import Base Utf Chars EState Emitter Api.

(** What a user may set before the first event. *)
Record settings := Mk_settings {
  st_encoding : encoding; st_canonical : bool; st_indent : Z; st_width : Z; st_unicode : bool; st_break : line_break }.

(** [Emitter::new] followed by [set_output] and the other setters ([EncAny]: [set_encoding] is not
    called).  [plan] is the fault schedule of the output handler. *)
Definition configure (st : settings) (plan : list write_ev) : M est unit :=
  em_set_output (Mk_writer [] plan) ;;
  (if encoding_eqb (st_encoding st) EncAny then ret tt else em_set_encoding (st_encoding st)) ;;
  em_set_canonical (st_canonical st) ;;
  em_set_indent (st_indent st) ;;
  em_set_width (st_width st) ;;
  em_set_unicode (st_unicode st) ;;
  em_set_break (st_break st).
Definition new_emitter (st : settings) (plan : list write_ev) : est := snd (configure st plan emitter_new).

(** A session: calls of [emit] and of [flush], up to the first one that does not succeed. *)
Inductive call := CEmit (e : event) | CFlush.
Definition run_call (c : call) : M est unit := match c with CEmit e => emit e | CFlush => flush end.
Fixpoint run_calls (l : list call) : M est unit :=
  match l with [] => ret tt | c :: r => run_call c ;; run_calls r end.
Definition emitted (l : list call) : list event := flat_map (fun c => match c with CEmit e => [e] | CFlush => [] end) l.

(** STREAM-START, then the session. *)
Definition session (enc : encoding) (l : list call) : M est unit :=
  run_calls (CEmit (event_new (EvStreamStart enc)) :: l).

Definition prefix {A} (a b : list A) : Prop := exists c, b = a ++ c.

(** The encoding of a stream: the one that was set, or else the one of the event, or else UTF-8. *)
Definition effective_encoding (set ev : encoding) : encoding :=
  match set with EncAny => match ev with EncAny => Utf8 | e => e end | e => e end.
(** The byte order mark with which UTF-16 output starts. *)
Definition bom_bytes (e : encoding) : list byte :=
  match e with Utf16Le => [255; 254] | Utf16Be => [254; 255] | _ => [] end.
Definition encoded (e : encoding) (t : list char) : list byte :=
  bom_bytes e ++
  match e with
  | Utf16Le => encode_utf16 false t
  | Utf16Be => encode_utf16 true t
  | _ => encode_utf8 t
  end.

(** The settings a stream is written with. *)
Definition effective (ev : encoding) (st : settings) : settings :=
  let i := if ((2 <=? st_indent st) && (st_indent st <=? 9))%Z then st_indent st else 2%Z in
  Mk_settings (effective_encoding (st_encoding st) ev) (st_canonical st) i
    (if (st_width st <? 0)%Z then 2147483647%Z else if (st_width st <=? 2 * i)%Z then 80%Z else st_width st)
    (st_unicode st) (match st_break st with BrAny => BrLn | b => b end).
