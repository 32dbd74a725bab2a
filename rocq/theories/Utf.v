(** Utf.v -- the parts of the Rust standard library's UTF-8 / UTF-16 codecs the crate uses
    (char::len_utf8, char::len_utf16, char::encode_utf8, core::str::from_utf8 with its
    Utf8Error, core::char::decode_utf16, str::encode_utf16, char::from_u32).
    Their documented behaviour is part of the trusted base. *)
From Verif Require Import Base.

(** A Rust [char]: any code point except surrogates. *)
Definition is_scalar (c : N) : bool := (c <? 55296) || ((57344 <=? c) && (c <? 1114112)).

(** char::from_u32 *)
Definition char_from_u32 (v : N) : option char := if is_scalar v then Some v else None.

(** char::len_utf8 / char::len_utf16 *)
Definition len_utf8 (c : char) : N :=
  if c <? 128 then 1 else if c <? 2048 then 2 else if c <? 65536 then 3 else 4.
Definition len_utf16 (c : char) : N := if c <? 65536 then 1 else 2.

(** str::len(): number of UTF-8 bytes. *)
Fixpoint str_len (s : str) : N :=
  match s with [] => 0 | c :: r => len_utf8 c + str_len r end.

(** char::encode_utf8 *)
Definition encode_utf8_char (c : char) : list byte :=
  if c <? 128 then [c]
  else if c <? 2048 then [192 + c / 64; 128 + c mod 64]
  else if c <? 65536 then [224 + c / 4096; 128 + (c / 64) mod 64; 128 + c mod 64]
  else [240 + c / 262144; 128 + (c / 4096) mod 64; 128 + (c / 64) mod 64; 128 + c mod 64].
Definition encode_utf8 (s : str) : list byte := flat_map encode_utf8_char s.

(** core::str::from_utf8.  The result is the list of the chars of the longest valid prefix
    ([valid_up_to]) together with what follows it: nothing, a sequence that is a truncated
    but so far valid character ([error_len() = None]) or an invalid one ([Some _]); the
    unread bytes are kept. *)
Inductive utf8_end := UEnd | UIncomplete (rest : list byte) | UInvalid (rest : list byte).

Definition cont (b : byte) : bool := (128 <=? b) && (b <=? 191).

(** second byte ranges of core's run_utf8_validation *)
Definition second3 (b1 b2 : byte) : bool :=
  if b1 =? 224 then (160 <=? b2) && (b2 <=? 191)
  else if b1 =? 237 then (128 <=? b2) && (b2 <=? 159)
  else cont b2.
Definition second4 (b1 b2 : byte) : bool :=
  if b1 =? 240 then (144 <=? b2) && (b2 <=? 191)
  else if b1 =? 244 then (128 <=? b2) && (b2 <=? 143)
  else cont b2.

Fixpoint from_utf8 (l : list byte) : list char * utf8_end :=
  match l with
  | [] => ([], UEnd)
  | b1 :: r1 =>
      if b1 <? 128 then
        let '(cs, e) := from_utf8 r1 in (b1 :: cs, e)
      else if (194 <=? b1) && (b1 <=? 223) then
        match r1 with
        | [] => ([], UIncomplete l)
        | b2 :: r2 =>
            if cont b2 then
              let '(cs, e) := from_utf8 r2 in ((b1 - 192) * 64 + (b2 - 128) :: cs, e)
            else ([], UInvalid l)
        end
      else if (224 <=? b1) && (b1 <=? 239) then
        match r1 with
        | [] => ([], UIncomplete l)
        | b2 :: r2 =>
            if second3 b1 b2 then
              match r2 with
              | [] => ([], UIncomplete l)
              | b3 :: r3 =>
                  if cont b3 then
                    let '(cs, e) := from_utf8 r3 in
                    ((b1 - 224) * 4096 + (b2 - 128) * 64 + (b3 - 128) :: cs, e)
                  else ([], UInvalid l)
              end
            else ([], UInvalid l)
        end
      else if (240 <=? b1) && (b1 <=? 244) then
        match r1 with
        | [] => ([], UIncomplete l)
        | b2 :: r2 =>
            if second4 b1 b2 then
              match r2 with
              | [] => ([], UIncomplete l)
              | b3 :: r3 =>
                  if cont b3 then
                    match r3 with
                    | [] => ([], UIncomplete l)
                    | b4 :: r4 =>
                        if cont b4 then
                          let '(cs, e) := from_utf8 r4 in
                          ((b1 - 240) * 262144 + (b2 - 128) * 4096 + (b3 - 128) * 64
                             + (b4 - 128) :: cs, e)
                        else ([], UInvalid l)
                    end
                  else ([], UInvalid l)
              end
            else ([], UInvalid l)
        end
      else ([], UInvalid l)
  end.

(** [available.chunks_exact(2)] with u16::from_be_bytes / from_le_bytes (reader.rs:161-171);
    an odd trailing byte is left out. *)
Fixpoint u16s (be : bool) (l : list byte) : list N :=
  match l with
  | a :: b :: r => (if be then a * 256 + b else b * 256 + a) :: u16s be r
  | _ => []
  end.

Definition is_surrogate (u : N) : bool := (55296 <=? u) && (u <=? 57343).
Definition is_low_surrogate (u : N) : bool := (56320 <=? u) && (u <=? 57343).

(** core::char::decode_utf16, up to (excluding) its first error item. *)
Fixpoint decode_utf16_prefix (l : list N) : list char :=
  match l with
  | [] => []
  | u :: r =>
      if negb (is_surrogate u) then u :: decode_utf16_prefix r
      else if is_low_surrogate u then []
      else match r with
           | [] => []
           | v :: r' =>
               if is_low_surrogate v then
                 65536 + (u - 55296) * 1024 + (v - 56320) :: decode_utf16_prefix r'
               else []
           end
  end.

(** [decode_utf16([u, v]).next()] for a surrogate [u]: [inr] carries unpaired_surrogate(). *)
Definition decode_utf16_pair (u v : N) : char + N :=
  if is_low_surrogate u then inr u
  else if is_low_surrogate v then inl (65536 + (u - 55296) * 1024 + (v - 56320))
  else inr u.

(** str::encode_utf16 *)
Definition encode_utf16_char (c : char) : list N :=
  if c <? 65536 then [c]
  else [55296 + (c - 65536) / 1024; 56320 + (c - 65536) mod 1024].
Definition u16_bytes (be : bool) (u : N) : list byte :=
  if be then [u / 256; u mod 256] else [u mod 256; u / 256].
Definition encode_utf16 (be : bool) (s : str) : list byte :=
  flat_map (u16_bytes be) (flat_map encode_utf16_char s).
