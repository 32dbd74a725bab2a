(** Spec_Reader.v -- vocabulary for the properties of the reader. *)
From Verif Require Import Base Utf State Reader Scanner Spec_Tokens Spec_Scanner.

(** ** UTF-8, from its definition (RFC 3629), independently of the decoder of the model. *)
Inductive utf8_of : char -> list byte -> Prop :=
| U1 c : c < 128 -> utf8_of c [c]
| U2 a b : 2 <= a < 32 -> b < 64 -> utf8_of (a * 64 + b) [192 + a; 128 + b]
| U3 a b c : a < 16 -> b < 64 -> c < 64 -> 2048 <= (a * 64 + b) * 64 + c -> ~ 55296 <= (a * 64 + b) * 64 + c <= 57343 ->
    utf8_of ((a * 64 + b) * 64 + c) [224 + a; 128 + b; 128 + c]
| U4 a b c d : a < 8 -> b < 64 -> c < 64 -> d < 64 -> 65536 <= ((a * 64 + b) * 64 + c) * 64 + d <= 1114111 ->
    utf8_of (((a * 64 + b) * 64 + c) * 64 + d) [240 + a; 128 + b; 128 + c; 128 + d].
Inductive utf8_text : str -> list byte -> Prop :=
| UT_nil : utf8_text [] []
| UT_cons c l s r : utf8_of c l -> utf8_text s r -> utf8_text (c :: s) (l ++ r).

(** ** Input streams *)
(** No I/O errors other than Interrupted; a chunk is empty only at the end of the input. *)
Definition error_free (i : source) : Prop :=
  Forall (fun e => match e with SData l => l <> [] | SIntr => True | SFail _ => False end) (s_evs i).
(** The very first read of the underlying stream is not interrupted. *)
Definition first_read_ok (i : source) : Prop :=
  s_cur i <> [] \/ match s_evs i with SIntr :: _ => False | _ => True end.
(** [input_text e i tx]: with encoding [e] (automatic, or UTF-8 requested) the stream [i] delivers
    exactly the text [tx]: all of its characters are allowed in YAML; a UTF-8 byte order mark is
    dropped in automatic mode, where a text without one must not start with byte 0xEF. *)
Definition input_text (e : encoding) (i : source) (tx : str) : Prop :=
  error_free i /\ Forall yaml_char tx /\ N.of_nat (length (all_bytes i)) < 9223372036854775807 /\
  exists l, utf8_text tx l /\
  match e with
  | Utf8 => all_bytes i = l
  | EncAny => first_read_ok i /\ (all_bytes i = [239; 187; 191] ++ l \/ all_bytes i = l /\ hd 0 l <> 239)
  | _ => False
  end.

(** ** UTF-16 (RFC 2781), for input *)
Definition utf16_unit (be : bool) (u : N) : list byte := if be then [u / 256; u mod 256] else [u mod 256; u / 256].
Inductive utf16_of (be : bool) : char -> list byte -> Prop :=
| V1 c : c < 65536 -> ~ 55296 <= c <= 57343 -> utf16_of be c (utf16_unit be c)
| V2 a b : a < 1024 -> b < 1024 -> utf16_of be (65536 + a * 1024 + b) (utf16_unit be (55296 + a) ++ utf16_unit be (56320 + b)).
Inductive utf16_text (be : bool) : str -> list byte -> Prop :=
| VT_nil : utf16_text be [] []
| VT_cons c l s r : utf16_of be c l -> utf16_text be s r -> utf16_text be (c :: s) (l ++ r).
(** Every successful read of the underlying stream gives a single byte. *)
Definition one_byte_reads (i : source) : Prop :=
  (length (s_cur i) <= 1)%nat /\
  Forall (fun e => match e with SData l => length l = 1%nat | SIntr => True | SFail _ => False end) (s_evs i).
(** The stream delivers the text [tx] in UTF-16 (big-endian if [be]), one byte at a time: after a
    byte order mark if the encoding is automatic, without one if it was requested. *)
Definition input_text16 (be : bool) (e : encoding) (i : source) (tx : str) : Prop :=
  one_byte_reads i /\ Forall yaml_char tx /\ N.of_nat (length (all_bytes i)) < 9223372036854775807 /\
  exists l, utf16_text be tx l /\
  (e = (if be then Utf16Be else Utf16Le) /\ all_bytes i = l \/
   e = EncAny /\ first_read_ok i /\ all_bytes i = (if be then [254; 255] else [255; 254]) ++ l).

(** ** What the scanner does with the reader: it asks for characters and takes them one by one. *)
Inductive read_op := Ask (n : nat) | Take.
Definition do_op (o : read_op) : M sst (list char) :=
  match o with
  | Ask n => cache n ;; ret []
  | Take => fun s => match buffer s with [] => (Ok [], s) | c :: b => (Ok [c], set_buffer b s) end
  end.
Fixpoint do_ops (l : list read_op) : M sst (list char) :=
  match l with
  | [] => ret []
  | o :: r => x <- do_op o ;; y <- do_ops r ;; ret (x ++ y)
  end.
