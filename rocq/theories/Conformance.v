(** Conformance.v -- the crate's own unit tests, run on the model.  These are tests of the model,
    not proofs about it. *)
From Verif Require Import Base Utf Chars State Reader Scanner Parser EState Emitter Document Api.

Definition nl : string := String (ascii_of_N 10) EmptyString.
Definition tabs : string := String (ascii_of_N 9) EmptyString.
Definition dq : string := String (ascii_of_N 34) EmptyString.
Infix "+++" := String.append (right associativity, at level 60).

Definition load_dump (input : list byte) : res unit * list byte :=
  match load (parser_on true (slice_source input)) with
  | (Ok d, _) => match dump d (emitter_on []) with (r, s) => (r, output s) end
  | (Err e, _) => (Err e, [])
  | (Panic p, _) => (Panic p, [])
  | (Fuel, _) => (Fuel, [])
  end.

(** lib.rs, test [sanity] *)
Definition sanity_input : list byte := lit (
  "unicode: " +++ dq +++ "Sosa did fine.\u263A" +++ dq +++ nl +++
  "control: " +++ dq +++ "\b1998\t1999\t2000\n" +++ dq +++ nl +++
  "hex esc: " +++ dq +++ "\x0d\x0a is \r\n" +++ dq +++ nl +++ nl +++
  "single: '" +++ dq +++ "Howdy!" +++ dq +++ " he cried.'" +++ nl +++
  "quoted: ' # Not a ''comment''.'" +++ nl +++
  "tie-fighter: '|\-*-/|'" +++ nl).
Definition sanity_output : list byte := lit (
  "unicode: " +++ dq +++ "Sosa did fine.\u263A" +++ dq +++ nl +++
  "control: " +++ dq +++ "\b1998\t1999\t2000\n" +++ dq +++ nl +++
  "hex esc: " +++ dq +++ "\r\n is \r\n" +++ dq +++ nl +++
  "single: '" +++ dq +++ "Howdy!" +++ dq +++ " he cried.'" +++ nl +++
  "quoted: ' # Not a ''comment''.'" +++ nl +++
  "tie-fighter: '|\-*-/|'" +++ nl).
Example test_sanity : load_dump sanity_input = (Ok tt, sanity_output).
Proof. vm_compute. reflexivity. Qed.

(** lib.rs, test [scanner_marks] *)
Definition mk (d : token_data) (a1 a2 a3 b1 b2 b3 : N) : option token :=
  Some (Mk_token d (Mk_mark a1 a2 a3) (Mk_mark b1 b2 b3)).
Example test_scanner_marks :
  fst (calls_ok scanner_next 12 (scanner_on true (slice_source (lit ("b:" +++ nl +++ "c: true")))))
  = ([ mk (TStreamStart Utf8) 0 0 0 0 0 0; mk TBlockMappingStart 0 0 0 0 0 0; mk TKey 0 0 0 0 0 0;
       mk (TScalar (lit "b") SPlain) 0 0 0 1 0 1; mk TValue 1 0 1 2 0 2; mk TKey 3 1 0 3 1 0;
       mk (TScalar (lit "c") SPlain) 3 1 0 4 1 1; mk TValue 4 1 1 5 1 2;
       mk (TScalar (lit "true") SPlain) 6 1 3 10 1 7; mk TBlockEnd 10 2 0 10 2 0;
       mk TStreamEnd 10 2 0 10 2 0; None ], None).
Proof. vm_compute. reflexivity. Qed.

(** tests/test_mark_display.rs: the marks are displayed 1-based *)
Definition stop_of {S A} (r : list A * option (res A) * S) : option (res A) := snd (fst r).
Example test_error_tab :
  stop_of (calls_ok parse 10 (parser_on true (slice_source (lit tabs))))
  = Some (Err (EScanner "while scanning for the next token" (Mk_mark 0 0 0)
                        "found character that cannot start any token" (Mk_mark 0 0 0))).
Proof. vm_compute. reflexivity. Qed.
Example test_error_quote :
  stop_of (calls_ok parse 10 (parser_on true (slice_source (lit ("---" +++ nl +++ "key: " +++ dq +++ "missing closing quote")))))
  = Some (Err (EScanner "while scanning a quoted scalar" (Mk_mark 9 1 5)
                        "found unexpected end of stream" (Mk_mark 31 1 27))).
Proof. vm_compute. reflexivity. Qed.
