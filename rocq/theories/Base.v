(** Base.v -- shared data types and the state/error monad of the model.

    Modelled sources: src/lib.rs (enums), src/error.rs (errors, marks),
    src/token.rs (tokens), src/event.rs (events).

    Conventions used throughout the model
    - a Rust [char] is its Unicode scalar value, an [N]; a Rust [u8] is an [N] below 256;
    - a Rust [String]/[&str]/[VecDeque<char>] is the list of its chars;
    - a Rust stack ([Vec] used with push/pop/last) is a list whose head is the top;
    - [Result] is [Ok]/[Err]; a Rust panic is the explicit outcome [Panic];
      [Fuel] is returned only by a loop that ran out of its (internally computed)
      iteration budget; the termination theorems show it is never returned. *)
From Coq Require Export String Ascii.
From Coq Require Export List NArith ZArith Bool Lia.
Export ListNotations.
Open Scope list_scope.
Open Scope N_scope.

Definition char := N.
Definition byte := N.
Definition str := list char.

(** String literals of the Rust source (ASCII only) as lists of code points. *)
Fixpoint lit (s : String.string) : str :=
  match s with
  | EmptyString => []
  | String a r => N_of_ascii a :: lit r
  end.

Fixpoint str_eqb (a b : str) : bool :=
  match a, b with
  | [], [] => true
  | x :: a', y :: b' => (x =? y) && str_eqb a' b'
  | _, _ => false
  end.

Definition is_empty {A} (l : list A) : bool := match l with [] => true | _ => false end.

Fixpoint last_opt {A} (l : list A) : option A :=
  match l with [] => None | [x] => Some x | _ :: r => last_opt r end.

Definition starts_with (c : char) (s : str) : bool :=
  match s with x :: _ => x =? c | [] => false end.
Definition ends_with (c : char) (s : str) : bool :=
  match last_opt s with Some x => x =? c | None => false end.

(** src/error.rs:3-13 [Mark]. u64 fields modelled as unbounded [N]. *)
Record mark := Mk_mark { m_index : N; m_line : N; m_col : N }.
Definition mark0 : mark := Mk_mark 0 0 0.        (* Mark::default() *)

(** std::io::ErrorKind, as far as the library distinguishes it. *)
Inductive ioerr := UnexpectedEof | Interrupted | OtherIo (code : N).

(** src/error.rs:21-42 [ErrorImpl]; the [&'static str] messages are Coq strings. *)
Inductive error :=
| EReader (problem : string) (offset : N) (value : Z)
| EScanner (context : string) (context_mark : mark) (problem : string) (problem_mark : mark)
| EParser (context : string) (context_mark : mark) (problem : string) (problem_mark : mark)
| EComposer (context : string) (context_mark : mark) (problem : string) (problem_mark : mark)
| EEmitter (problem : string)
| EIo (e : ioerr).

(** The panic sites of the library. One constructor per site (or per kind of site), so that
    a theorem can say exactly which panics are possible. *)
Inductive panic :=
| PNoReadHandler          (* reader.rs:293 expect("no read handler") *)
| PSkipChar               (* scanner.rs:127 expect("unexpected end of tokens") *)
| PReadChar               (* scanner.rs:158 panic!("unexpected end of input") *)
| PReadLineBreak          (* scanner.rs:166 panic!("unexpected end of input") *)
| PSimpleKeysEmpty        (* scanner.rs:445,451,709 last_mut().unwrap() *)
| PIndentsEmpty           (* scanner.rs:527 / emitter.rs pop().unwrap() on indents *)
| PStatesEmpty            (* parser.rs / emitter.rs states.pop().unwrap() *)
| PMarksEmpty             (* parser.rs marks.pop().unwrap() *)
| PTokenInsert            (* scanner.rs:510,716 VecDeque::insert out of bounds *)
| PTokensEmpty            (* scanner.rs:215,225,235,244,254,261 *)
| PNotAvailable           (* scanner.rs:228,247 assert token_available *)
| PFlowLevelOverflow      (* scanner.rs:478 *)
| PIndentOverflow         (* scanner.rs:499 *)
| PTagTodo                (* scanner.rs:1112 panic!("TODO: What is expected here?") *)
| PEscapeUnwrap           (* scanner.rs:1541 buffer.get(1).unwrap() *)
| PDigit                  (* macros.rs AS_DIGIT!/AS_HEX_AT! expect *)
| PIndex                  (* slice/Vec index out of bounds *)
| PUnreachable            (* unreachable!() *)
| PDebugAssert            (* reader.rs:199 debug_assert! (debug builds only) *)
| PSubOverflow            (* document.rs `index as usize - 1` with index = 0, debug builds *)
| PParserEnd              (* parser.rs:226 *)
| PExpectedStreamStart    (* document.rs:261 *)
| PExpectedDocumentStart  (* document.rs:312 *)
| PUnexpectedEvent        (* document.rs:323-325 *)
| PDocParent              (* document.rs:408 *)
| PSeqEnd                 (* document.rs:504,506 *)
| PMapEnd                 (* document.rs:556,558 *)
| PAssert                 (* other assert!/assert_eq!/assert_ne! of the public API *)
| PNoWriter               (* emitter.rs:1769 assert write_handler.is_some() *)
| PNoEncoding             (* emitter.rs:1770 assert_ne encoding Any *)
| PAliasUnwrap            (* document.rs:635 anchor.unwrap() *)
| PCharBoundary           (* str slicing off a char boundary, emitter.rs:1133 *)
| PNoScalarAnalysis       (* emitter.rs:827,923 *)
| PIndentHint.            (* emitter.rs:1669 *)

Inductive res (A : Type) :=
| Ok (a : A)
| Err (e : error)
| Panic (p : panic)
| Fuel.
Arguments Ok {A} _.
Arguments Err {A} _.
Arguments Panic {A} _.
Arguments Fuel {A}.

(** A function mutating [S] through [&mut self]: the state is kept on every outcome,
    because callers can go on using a parser or emitter after an error. *)
Definition M (S A : Type) := S -> res A * S.

Definition ret {S A} (a : A) : M S A := fun s => (Ok a, s).
Definition fail {S A} (e : error) : M S A := fun s => (Err e, s).
Definition panics {S A} (p : panic) : M S A := fun s => (Panic p, s).
Definition bind {S A B} (m : M S A) (k : A -> M S B) : M S B := fun s =>
  match m s with
  | (Ok a, s') => k a s'
  | (Err e, s') => (Err e, s')
  | (Panic p, s') => (Panic p, s')
  | (Fuel, s') => (Fuel, s')
  end.
Definition get {S} : M S S := fun s => (Ok s, s).
Definition gets {S A} (f : S -> A) : M S A := fun s => (Ok (f s), s).
Definition modify {S} (f : S -> S) : M S unit := fun s => (Ok tt, f s).

Notation "x <- m ;; k" := (bind m (fun x => k)) (at level 61, m at next level, right associativity).
Notation "' p <- m ;; k" := (bind m (fun x => let 'p := x in k))
  (at level 61, p pattern, m at next level, right associativity).
Notation "m ;; k" := (bind m (fun _ => k)) (at level 61, right associativity).

Definition when {S} (b : bool) (m : M S unit) : M S unit := if b then m else ret tt.

(** A Rust [loop { .. }]: the body returns [inl a] to go round again with the locals [a],
    [inr b] to leave the loop with [b].  [n] bounds the number of iterations. *)
Fixpoint loopM {S A B} (n : nat) (body : A -> M S (A + B)) (a : A) : M S B :=
  match n with
  | O => fun s => (Fuel, s)
  | S n' => r <- body a ;;
            match r with
            | inl a' => loopM n' body a'
            | inr b => ret b
            end
  end.

(** Enumerations of src/lib.rs:88-154. *)
Inductive encoding := EncAny | Utf8 | Utf16Le | Utf16Be.
Inductive line_break := BrAny | BrCr | BrLn | BrCrLn.
Inductive scalar_style := SAny | SPlain | SSingle | SDouble | SLiteral | SFolded.
Inductive seq_style := SeqAny | SeqBlock | SeqFlow.
Inductive map_style := MapAny | MapBlock | MapFlow.

Definition encoding_eqb (a b : encoding) : bool :=
  match a, b with
  | EncAny, EncAny | Utf8, Utf8 | Utf16Le, Utf16Le | Utf16Be, Utf16Be => true
  | _, _ => false
  end.
Definition style_eqb (a b : scalar_style) : bool :=
  match a, b with
  | SAny, SAny | SPlain, SPlain | SSingle, SSingle
  | SDouble, SDouble | SLiteral, SLiteral | SFolded, SFolded => true
  | _, _ => false
  end.

(** src/lib.rs:68-85 [VersionDirective], [TagDirective]. *)
Record version_directive := Mk_vd { vd_major : Z; vd_minor : Z }.
Record tag_directive := Mk_td { td_handle : str; td_prefix : str }.

(** src/lib.rs:48-72 tag constants. *)
Definition STR_TAG : str := lit "tag:yaml.org,2002:str".
Definition SEQ_TAG : str := lit "tag:yaml.org,2002:seq".
Definition MAP_TAG : str := lit "tag:yaml.org,2002:map".

(** src/token.rs *)
Inductive token_data :=
| TStreamStart (enc : encoding)
| TStreamEnd
| TVersionDirective (major minor : Z)
| TTagDirective (handle prefix : str)
| TDocumentStart
| TDocumentEnd
| TBlockSequenceStart
| TBlockMappingStart
| TBlockEnd
| TFlowSequenceStart
| TFlowSequenceEnd
| TFlowMappingStart
| TFlowMappingEnd
| TBlockEntry
| TFlowEntry
| TKey
| TValue
| TAlias (value : str)
| TAnchor (value : str)
| TTag (handle suffix : str)
| TScalar (value : str) (style : scalar_style).
Record token := Mk_token { t_data : token_data; t_start : mark; t_end : mark }.

(** src/event.rs *)
Inductive event_data :=
| EvStreamStart (enc : encoding)
| EvStreamEnd
| EvDocumentStart (vd : option version_directive) (tds : list tag_directive) (implicit : bool)
| EvDocumentEnd (implicit : bool)
| EvAlias (anchor : str)
| EvScalar (anchor tag : option str) (value : str) (plain_implicit quoted_implicit : bool)
           (style : scalar_style)
| EvSequenceStart (anchor tag : option str) (implicit : bool) (style : seq_style)
| EvSequenceEnd
| EvMappingStart (anchor tag : option str) (implicit : bool) (style : map_style)
| EvMappingEnd.
Record event := Mk_event { e_data : event_data; e_start : mark; e_end : mark }.

(** src/event.rs:86-92 [Event::new]. *)
Definition event_new (d : event_data) : event := Mk_event d mark0 mark0.

(** The two default %TAG directives (parser.rs:909-919, emitter.rs:535-545). *)
Definition default_tag_directives : list tag_directive :=
  [ Mk_td (lit "!") (lit "!"); Mk_td (lit "!!") (lit "tag:yaml.org,2002:") ].
