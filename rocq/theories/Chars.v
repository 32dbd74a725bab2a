(** Chars.v -- character classes, src/macros.rs. [None] stands for the end of the buffer. *)
From Verif Require Import Base.

(** Named code points, so that the model reads like the source. *)
Notation cNUL := 0 (only parsing).      Notation cBEL := 7 (only parsing).
Notation cBS := 8 (only parsing).       Notation cTAB := 9 (only parsing).
Notation cLF := 10 (only parsing).      Notation cVT := 11 (only parsing).
Notation cFF := 12 (only parsing).      Notation cCR := 13 (only parsing).
Notation cESC := 27 (only parsing).     Notation cSP := 32 (only parsing).
Notation cBANG := 33 (only parsing).    Notation cDQ := 34 (only parsing).
Notation cHASH := 35 (only parsing).    Notation cDOLLAR := 36 (only parsing).
Notation cPCT := 37 (only parsing).     Notation cAMP := 38 (only parsing).
Notation cSQ := 39 (only parsing).      Notation cLPAR := 40 (only parsing).
Notation cRPAR := 41 (only parsing).    Notation cSTAR := 42 (only parsing).
Notation cPLUS := 43 (only parsing).    Notation cCOMMA := 44 (only parsing).
Notation cMINUS := 45 (only parsing).   Notation cDOT := 46 (only parsing).
Notation cSLASH := 47 (only parsing).   Notation c0 := 48 (only parsing).
Notation c9 := 57 (only parsing).       Notation cCOLON := 58 (only parsing).
Notation cSEMI := 59 (only parsing).    Notation cLT := 60 (only parsing).
Notation cEQ := 61 (only parsing).      Notation cGT := 62 (only parsing).
Notation cQM := 63 (only parsing).      Notation cAT := 64 (only parsing).
Notation cA := 65 (only parsing).       Notation cF := 70 (only parsing).
Notation cZ := 90 (only parsing).       Notation cLBRK := 91 (only parsing).
Notation cBSL := 92 (only parsing).     Notation cRBRK := 93 (only parsing).
Notation cUNDER := 95 (only parsing).   Notation cBTICK := 96 (only parsing).
Notation ca := 97 (only parsing).       Notation cf := 102 (only parsing).
Notation cz := 122 (only parsing).      Notation cLBRC := 123 (only parsing).
Notation cPIPE := 124 (only parsing).   Notation cRBRC := 125 (only parsing).
Notation cTILDE := 126 (only parsing).  Notation cNEL := 133 (only parsing).
Notation cNBSP := 160 (only parsing).   Notation cLS := 8232 (only parsing).
Notation cPS := 8233 (only parsing).    Notation cBOM := 65279 (only parsing).

Definition in_range (lo hi c : N) : bool := (lo <=? c) && (c <=? hi).

(** CHECK! / CHECK_AT!, macros.rs:1-11, on the optional char [o]. *)
Definition chk (c : char) (o : option char) : bool :=
  match o with Some d => d =? c | None => false end.

(** macros.rs:19-29 [is_alpha] *)
Definition is_alpha_c (c : char) : bool :=
  in_range c0 c9 c || in_range cA cZ c || in_range ca cz c || (c =? cUNDER) || (c =? cMINUS).
Definition is_alpha (o : option char) : bool :=
  match o with Some c => is_alpha_c c | None => false end.

(** macros.rs:31-39 IS_DIGIT!: [char::is_digit(10)]. *)
Definition is_digit_c (c : char) : bool := in_range c0 c9 c.
Definition is_digit (o : option char) : bool :=
  match o with Some c => is_digit_c c | None => false end.

(** macros.rs:41-50 AS_DIGIT!: [to_digit(10)]; [None] models the expect() failing. *)
Definition as_digit (o : option char) : option N :=
  match o with Some c => if is_digit_c c then Some (c - 48) else None | None => None end.

(** macros.rs:52-60 IS_HEX_AT!: [char::is_digit(16)]. *)
Definition is_hex_c (c : char) : bool := in_range c0 c9 c || in_range cA cF c || in_range ca cf c.
Definition is_hex (o : option char) : bool :=
  match o with Some c => is_hex_c c | None => false end.

(** macros.rs:62-71 AS_HEX_AT!: [to_digit(16)]. *)
Definition hex_val (c : char) : N :=
  if in_range c0 c9 c then c - 48
  else if in_range cA cF c then c - 55
  else c - 87.
Definition as_hex (o : option char) : option N :=
  match o with Some c => if is_hex_c c then Some (hex_val c) else None | None => None end.

(** [char::is_ascii], macros.rs:73-75. *)
Definition is_ascii (c : char) : bool := c <? 128.

(** macros.rs:77-92 [is_printable]. *)
Definition is_printable (c : char) : bool :=
  if (c =? 65279) || (c =? 65534) || (c =? 65535) then false
  else (c =? 10) || in_range 32 126 c || in_range 160 191 c || in_range 192 53247 c
       || in_range 53248 55295 c || in_range 57344 61439 c || in_range 61440 65533 c
       || in_range 65536 1114111 c.

(** macros.rs:106-110 IS_BOM! (scanner side), and macros.rs:112-114 [is_bom] (emitter side),
    which compares with U+7EFF. *)
Definition IS_BOM (o : option char) : bool := chk cBOM o.
Definition is_bom (c : char) : bool := c =? 32511.

(** macros.rs:116-164 spaces, tabs, blanks. *)
Definition is_space (o : option char) : bool := chk cSP o.
Definition is_tab (o : option char) : bool := chk cTAB o.
Definition is_blank (o : option char) : bool := is_space o || is_tab o.

(** macros.rs:177-182 [is_break]. *)
Definition is_break_c (c : char) : bool :=
  (c =? cCR) || (c =? cLF) || (c =? cNEL) || (c =? cLS) || (c =? cPS).
Definition is_break (o : option char) : bool :=
  match o with Some c => is_break_c c | None => false end.

(** macros.rs:94-104 IS_Z!, 184-187 [is_breakz], 166-169 [is_blankz]. *)
Definition is_z (o : option char) : bool := match o with None => true | Some _ => false end.
Definition is_breakz (o : option char) : bool := is_z o || is_break o.
Definition is_blankz (o : option char) : bool := is_blank o || is_breakz o.
