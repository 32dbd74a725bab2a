(** Tools.v -- the two programs of the crate: src/bin/run-parser-test-suite.rs, which prints the events
    of a YAML text, one on a line, and src/bin/run-emitter-test-suite.rs, which reads such lines and
    emits the events.

    Simplifications.  Text is modelled as characters: the parser program writes the UTF-8 encoding of
    the lines (print_escaped works on bytes, but replaces only bytes below 128, so it does the same
    character by character); writing to its output cannot be seen to fail ([_ = write!]).  The emitter
    program is modelled from the characters its read_line gives.  Opening files, reading arguments, the
    exit code and the text of error messages are not modelled. *)
From Verif Require Import Base Chars State Reader Scanner Parser EState Emitter.
Open Scope N_scope.

(** ** run-parser-test-suite.rs *)
(** 121-134 [print_escaped] *)
Definition escape_char (c : char) : str :=
  if c =? 92 then [92; 92] else if c =? 0 then [92; 48] else if c =? 8 then [92; 98] else if c =? 10 then [92; 110]
  else if c =? 13 then [92; 114] else if c =? 9 then [92; 116] else [c].
Definition print_escaped (v : str) : str := flat_map escape_char v.
(** 73-79, 88-93, 101-106: anchor and tag *)
Definition print_anchor (a : option str) : str := match a with Some a => lit " &" ++ a | None => [] end.
Definition print_tag (t : option str) : str := match t with Some t => lit " <" ++ t ++ lit ">" | None => [] end.
(** 80-87; [None]: process::abort *)
Definition style_sigil (s : scalar_style) : option char :=
  match s with SPlain => Some 58 | SSingle => Some 39 | SDouble => Some 34 | SLiteral => Some 124 | SFolded => Some 62 | SAny => None end.
(** 42-112: the line of an event, without its end *)
Definition print_event (d : event_data) : option str :=
  match d with
  | EvStreamStart _ => Some (lit "+STR")
  | EvStreamEnd => Some (lit "-STR")
  | EvDocumentStart _ _ implicit => Some (lit "+DOC" ++ if implicit then [] else lit " ---")
  | EvDocumentEnd implicit => Some (lit "-DOC" ++ if implicit then [] else lit " ...")
  | EvAlias a => Some (lit "=ALI *" ++ a)
  | EvScalar a t v _ _ s =>
      match style_sigil s with
      | Some c => Some (lit "=VAL" ++ print_anchor a ++ print_tag t ++ [32; c] ++ print_escaped v)
      | None => None
      end
  | EvSequenceStart a t _ _ => Some (lit "+SEQ" ++ print_anchor a ++ print_tag t)
  | EvSequenceEnd => Some (lit "-SEQ")
  | EvMappingStart a t _ _ => Some (lit "+MAP" ++ print_anchor a ++ print_tag t)
  | EvMappingEnd => Some (lit "-MAP")
  end.
(** 22-119 [test_main]: what is printed, and how it ends ([PAborted]: process::abort; [PRunning]: not
    within [n] calls). *)
Inductive print_end := PDone | PParseError (e : error) | PPanic (p : panic) | PAborted | PRunning.
Fixpoint parser_tool (n : nat) (p : pst) : str * print_end :=
  match n with
  | O => ([], PRunning)
  | S n =>
      match parse p with
      | (Ok e, p') =>
          match print_event (e_data e) with
          | None => ([], PAborted)
          | Some l =>
              match e_data e with
              | EvStreamEnd => (l ++ [10], PDone)
              | _ => let (o, r) := parser_tool n p' in (l ++ 10 :: o, r)
              end
          end
      | (Err e, _) => ([], PParseError e)
      | (Panic x, _) => ([], PPanic x)
      | (Fuel, _) => ([], PRunning)
      end
  end.

(** ** run-emitter-test-suite.rs *)
(** [str::split_once] *)
Fixpoint split_once (c : char) (l : str) : option (str * str) :=
  match l with
  | [] => None
  | x :: r => if x =? c then Some ([], r) else match split_once c r with Some (a, b) => Some (x :: a, b) | None => None end
  end.
(** [str::starts_with] *)
Fixpoint starts (p l : str) : bool :=
  match p, l with [], _ => true | _, [] => false | a :: p, b :: l => (a =? b) && starts p l end.
(** 103-112 [get_anchor] *)
Definition get_anchor (sigil : char) (line : str) : option str :=
  match split_once sigil line with
  | None => None
  | Some (_, from_sigil) =>
      match split_once 32 from_sigil with
      | Some (until_space, _) => Some until_space
      | None => match from_sigil with [] => None | _ => Some from_sigil end
      end
  end.
(** 114-118 [get_tag] *)
Definition get_tag (line : str) : option str :=
  match split_once 60 line with
  | None => None
  | Some (_, f) => match split_once 62 f with Some (t, _) => Some t | None => None end
  end.
(** 128-140 *)
Definition sigil_style (c : char) : option scalar_style :=
  if c =? 58 then Some SPlain else if c =? 39 then Some SSingle else if c =? 34 then Some SDouble
  else if c =? 124 then Some SLiteral else if c =? 62 then Some SFolded else None.
(** 120-142: the loop of [get_value]; what is behind the first space that is followed by a style
    character.  [None]: it panics. *)
Fixpoint find_value (l : str) : option (scalar_style * str) :=
  match l with
  | [] => None
  | x :: r =>
      if x =? 32 then
        match r with
        | [] => None
        | c :: v => match sigil_style c with Some s => Some (s, v) | None => find_value r end
        end
      else find_value r
  end.
(** 144-161.  [None]: it panics. *)
Definition unescape_char (c : char) : option char :=
  if c =? 92 then Some 92 else if c =? 48 then Some 0 else if c =? 98 then Some 8 else if c =? 110 then Some 10
  else if c =? 114 then Some 13 else if c =? 116 then Some 9 else None.
Fixpoint unescape (l : str) : option str :=
  match l with
  | [] => Some []
  | x :: r =>
      if x =? 92 then
        match r with
        | [] => None
        | c :: r' => match unescape_char c, unescape r' with Some d, Some v => Some (d :: v) | _, _ => None end
        end
      else match unescape r with Some v => Some (x :: v) | None => None end
  end.
(** 44-92: the event of a line. *)
Inductive reading := REvent (d : event_data) | RUnknown | RPanic.
Definition read_event (line : str) : reading :=
  if starts (lit "+STR") line then REvent (EvStreamStart Utf8)
  else if starts (lit "-STR") line then REvent EvStreamEnd
  else if starts (lit "+DOC") line then REvent (EvDocumentStart None [] (negb (starts (lit " ---") (skipn 4 line))))
  else if starts (lit "-DOC") line then REvent (EvDocumentEnd (negb (starts (lit " ...") (skipn 4 line))))
  else if starts (lit "+MAP") line then REvent (EvMappingStart (get_anchor 38 line) (get_tag line) false MapBlock)
  else if starts (lit "-MAP") line then REvent EvMappingEnd
  else if starts (lit "+SEQ") line then REvent (EvSequenceStart (get_anchor 38 line) (get_tag line) false SeqBlock)
  else if starts (lit "-SEQ") line then REvent EvSequenceEnd
  else if starts (lit "=VAL") line then
    match find_value line with
    | None => RPanic
    | Some (s, raw) =>
        match unescape raw with
        | None => RPanic
        | Some v => let implicit := match get_tag line with None => true | Some _ => false end in
                    REvent (EvScalar (get_anchor 38 line) (get_tag line) v implicit implicit s)
        end
    end
  else if starts (lit "=ALI") line then match get_anchor 42 line with Some a => REvent (EvAlias a) | None => RPanic end
  else RUnknown.
(** [BufRead::read_line] and [strip_suffix]: the lines of a text; the last one may lack its end. *)
Fixpoint input_lines (cur : str) (l : str) : list str :=
  match l with
  | [] => match cur with [] => [] | _ => [cur] end
  | x :: r => if x =? 10 then cur :: input_lines [] r else input_lines (cur ++ [x]) r
  end.
(** 37-98: the loop of [test_main] *)
Inductive emit_end := EDone | EUnknown (line : str) | EToolPanic | EEmit (r : res unit).
Fixpoint emit_lines (ls : list str) (s : est) : emit_end * est :=
  match ls with
  | [] => (EDone, s)
  | l :: r =>
      match read_event l with
      | RUnknown => (EUnknown l, s)
      | RPanic => (EToolPanic, s)
      | REvent d =>
          match emit (event_new d) s with
          | (Ok _, s') => emit_lines r s'
          | (x, s') => (EEmit x, s')
          end
      end
  end.
(** 26-33: the emitter, on an output with the fault schedule [plan] *)
Definition tool_emitter (plan : list write_ev) : est :=
  snd ((em_set_output (Mk_writer [] plan) ;; em_set_canonical false ;; em_set_unicode false) emitter_new).
Definition emitter_tool (text : str) (plan : list write_ev) : emit_end * est := emit_lines (input_lines [] text) (tool_emitter plan).
