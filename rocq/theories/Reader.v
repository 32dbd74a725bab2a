(** Reader.v -- src/reader.rs: decoding the input stream into the character buffer. *)
From Verif Require Import Base Utf Chars State.

(** BufRead::fill_buf on the modelled stream. *)
Definition fill_buf (i : source) : (list byte + ioerr) * source :=
  match s_cur i with
  | _ :: _ => (inl (s_cur i), i)
  | [] => match s_evs i with
          | [] => (inl [], i)
          | SData l :: r => (inl l, Mk_source l r)
          | SIntr :: r => (inr Interrupted, Mk_source [] r)
          | SFail k :: r => (inr (OtherIo k), Mk_source [] r)
          end
  end.

(** BufRead::consume *)
Definition consume (n : nat) (i : source) : source := Mk_source (skipn n (s_cur i)) (s_evs i).

(** Read::read_exact (std's default implementation: retries on Interrupted, UnexpectedEof when
    the stream ends first; bytes already read are gone). *)
Fixpoint read_exact_go (evs : list src_ev) (n : nat) (acc cur : list byte) {struct evs}
  : (list byte + ioerr) * source :=
  let got := firstn n cur in
  if Nat.eqb (length got) n then (inl (acc ++ got), Mk_source (skipn n cur) evs)
  else match evs with
       | [] => (inr UnexpectedEof, Mk_source [] [])
       | SData [] :: r => (inr UnexpectedEof, Mk_source [] r)
       | SData l :: r => read_exact_go r (n - length got)%nat (acc ++ got) l
       | SIntr :: r => read_exact_go r (n - length got)%nat (acc ++ got) []
       | SFail k :: r => (inr (OtherIo k), Mk_source [] r)
       end.
Definition read_exact (n : nat) (i : source) : (list byte + ioerr) * source :=
  read_exact_go (s_evs i) n [] (s_cur i).

(** The loop of reader.rs:58-65 and 152-159: fill_buf retried on Interrupted. *)
Fixpoint fill_buf_retry_go (evs : list src_ev) : (list byte + ioerr) * source :=
  match evs with
  | [] => (inl [], Mk_source [] [])
  | SData l :: r => (inl l, Mk_source l r)
  | SIntr :: r => fill_buf_retry_go r
  | SFail k :: r => (inr (OtherIo k), Mk_source [] r)
  end.
Definition fill_buf_retry (i : source) : (list byte + ioerr) * source :=
  match s_cur i with
  | _ :: _ => (inl (s_cur i), i)
  | [] => fill_buf_retry_go (s_evs i)
  end.

(** Lift an I/O operation on the stream to the scanner; the [?] operator turns an
    io::Error into Error::Io (error.rs:57-61).  reader.rs:293 "no read handler". *)
Definition io {A} (f : source -> (A + ioerr) * source) : M sst A := fun s =>
  match src s with
  | None => (Panic PNoReadHandler, s)
  | Some i => match f i with
              | (inl a, i') => (Ok a, set_src (Some i') s)
              | (inr e, i') => (Err (EIo e), set_src (Some i') s)
              end
  end.
Definition consume_m (n : nat) : M sst unit := io (fun i => (inl tt, consume n i)).

(** reader.rs:269-287 [push_char]: the characters YAML allows in a stream. *)
Definition allowed_char (c : char) : bool :=
  (c =? 9) || (c =? 10) || (c =? 13) || in_range 32 126 c || (c =? 133)
  || in_range 160 55295 c || in_range 57344 65533 c || in_range 65536 1114111 c.
Definition push_char (c : char) (off : N) : M sst unit := fun s =>
  if allowed_char c then (Ok tt, set_buffer (buffer s ++ [c]) s)
  else (Err (EReader "control characters are not allowed" off (Z.of_N c)), s).

(** reader.rs:11-48 [yaml_parser_determine_encoding].  i32::from_be_bytes/from_le_bytes of the
    bytes of a bad BOM is only used as the [value] of the error. *)
Definition to_i32 (u : N) : Z := if u <? 2147483648 then Z.of_N u else (Z.of_N u - 4294967296)%Z.
Definition bytes_eqb : list byte -> list byte -> bool := str_eqb.
Definition determine_encoding : M sst (option encoding) :=
  initial <- io fill_buf ;;
  match initial with
  | [] => ret None
  | b :: _ =>
      if b =? 239 then
        bom <- io (read_exact 3) ;;
        if bytes_eqb bom [239; 187; 191] then ret (Some Utf8)
        else fail (EReader "invalid byte order marker" 0
                     (to_i32 (nth 0 bom 0 * 16777216 + nth 1 bom 0 * 65536 + nth 2 bom 0 * 256)))
      else if (b =? 255) || (b =? 254) then
        bom <- io (read_exact 2) ;;
        if bytes_eqb bom [255; 254] then ret (Some Utf16Le)
        else if bytes_eqb bom [254; 255] then ret (Some Utf16Be)
        else fail (EReader "invalid byte order marker" 0
                     (to_i32 (nth 0 bom 0 + nth 1 bom 0 * 256)))
      else ret (Some Utf8)
  end.

(** reader.rs:71-74, 87-90: push every char, counting UTF-8 bytes. *)
Fixpoint push_chars_utf8 (cs : list char) : M sst unit :=
  match cs with
  | [] => ret tt
  | c :: r => off <- gets offset ;;
              push_char c off ;;
              modify (fun s => set_offset (offset s + len_utf8 c) s) ;;
              push_chars_utf8 r
  end.

(** reader.rs:251-263 [utf8_char_width] *)
Definition utf8_char_width (b : byte) : nat :=
  if N.land b 128 =? 0 then 1
  else if N.land b 224 =? 192 then 2
  else if N.land b 240 =? 224 then 3
  else if N.land b 248 =? 240 then 4
  else 0.

(** reader.rs:122-145 [read_utf8_char_unbuffered] *)
Definition read_utf8_char_unbuffered (initial : byte) : M sst unit :=
  let width := utf8_char_width initial in
  buf <- io (read_exact width) ;;
  match from_utf8 buf with
  | (cs, UEnd) =>
      match cs with
      | [] => panics PUnreachable
      | c :: _ => off <- gets offset ;;
                  push_char c off ;;
                  modify (fun s => set_offset (offset s + N.of_nat width) s)
      end
  | _ => off <- gets offset ;;
         fail (EReader "invalid UTF-8" off (Z.of_N (nth 0 buf 0)))
  end.

(** reader.rs:53-120 [read_utf8_buffered] *)
Definition read_utf8_buffered : M sst bool :=
  available <- io fill_buf_retry ;;
  match available with
  | [] => ret false
  | b0 :: _ =>
      match from_utf8 available with
      | (cs, UEnd) => push_chars_utf8 cs ;; consume_m (length available) ;; ret true
      | (cs, UInvalid rest) =>
          push_chars_utf8 cs ;;
          off <- gets offset ;;
          fail (EReader "invalid UTF-8" off (Z.of_N (nth 0 rest 0)))
      | (cs, UIncomplete rest) =>
          push_chars_utf8 cs ;;
          let valid_bytes := (length available - length rest)%nat in
          if Nat.eqb valid_bytes 0 then read_utf8_char_unbuffered b0 ;; ret true
          else consume_m valid_bytes ;; ret true
      end
  end.

(** reader.rs:173-192: push the decodable chars; returns [used], counted in 16-bit units as in
    the source (reader.rs:178-180 adds [len_utf16] to both [offset] and [used]). *)
Fixpoint push_chars_utf16 (cs : list char) (used : N) : M sst N :=
  match cs with
  | [] => ret used
  | c :: r => off <- gets offset ;;
              push_char c off ;;
              modify (fun s => set_offset (offset s + len_utf16 c) s) ;;
              push_chars_utf16 r (used + len_utf16 c)
  end.

(** reader.rs:205-249 [read_utf16_char_unbuffered] *)
Definition u16_of (be : bool) (l : list byte) : N := nth 0 (u16s be l) 0.
Definition read_utf16_char_unbuffered (be : bool) : M sst unit :=
  b1 <- io (read_exact 2) ;;
  let first := u16_of be b1 in
  if is_surrogate first then
    b2 <- io (read_exact 2) ;;
    let second := u16_of be b2 in
    off <- gets offset ;;
    match decode_utf16_pair first second with
    | inl c => push_char c off ;; modify (fun s => set_offset (offset s + 4) s)
    | inr u => fail (EReader "invalid UTF-16" off (Z.of_N u))
    end
  else
    off <- gets offset ;;
    push_char first off ;; modify (fun s => set_offset (offset s + 2) s).

(** reader.rs:147-203 [read_utf16_buffered] *)
Definition read_utf16_buffered (be : bool) : M sst bool :=
  available <- io fill_buf_retry ;;
  match available with
  | [] => ret false
  | _ :: rest =>
      used <- push_chars_utf16 (decode_utf16_prefix (u16s be available)) 0 ;;
      if negb (used =? 0) then
        consume_m (N.to_nat used) ;;
        modify (fun s => set_offset (offset s + used) s) ;;
        ret true
      else
        s <- get ;;
        (if debug_build s && negb (is_empty rest) then panics PDebugAssert else ret tt) ;;
        read_utf16_char_unbuffered be ;; ret true
  end.

(** reader.rs:311-320: dispatch on the encoding. *)
Definition read_more : M sst bool :=
  e <- gets enc ;;
  match e with
  | EncAny => panics PUnreachable
  | Utf8 => read_utf8_buffered
  | Utf16Le => read_utf16_buffered false
  | Utf16Be => read_utf16_buffered true
  end.

(** reader.rs:306-325: [while parser.buffer.len() < length].  [true] = left by an early
    [return Ok(())]. *)
Definition fill_loop (len : nat) : M sst bool :=
  loop (fun _ : unit =>
    s <- get ;;
    if Nat.ltb (length (buffer s)) len then
      if eof s then ret (inr true)
      else not_eof <- read_more ;;
           if not_eof : bool then ret (inl tt)
           else modify (set_eof true) ;; ret (inr true)
    else ret (inr false)) tt.

(** reader.rs:289-331 [yaml_parser_update_buffer]; usize is 64 bits (2^63 - 1 = !0 / 2). *)
Definition update_buffer (len : nat) : M sst unit :=
  s <- get ;;
  match src s with
  | None => panics PNoReadHandler
  | Some _ =>
      if Nat.leb len (length (buffer s)) then ret tt
      else
        done <- (if encoding_eqb (enc s) EncAny then
                   o <- determine_encoding ;;
                   match o with
                   | Some e => modify (set_enc e) ;; ret false
                   | None => modify (set_eof true) ;; ret true
                   end
                 else ret false) ;;
        if done : bool then ret tt
        else
          early <- fill_loop len ;;
          if early : bool then ret tt
          else
            off <- gets offset ;;
            if 9223372036854775807 <=? off
            then fail (EReader "input is too long" off (-1))
            else ret tt
  end.

(** scanner.rs:117-123 [Scanner::cache] *)
Definition cache (len : nat) : M sst unit :=
  s <- get ;;
  if Nat.leb len (length (buffer s)) then ret tt else update_buffer len.
