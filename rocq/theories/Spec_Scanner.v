(** Spec_Scanner.v -- vocabulary for the properties of scanner sessions.  Nothing here refers to
    the functions of the scanner model, except [call] which invokes its two public methods. *)
From Verif Require Import Base State Scanner Spec_Tokens.

(** ** Inputs *)
(** All bytes the reader will ever deliver, whatever the chunks and faults. *)
Definition all_bytes (i : source) : list byte :=
  s_cur i ++ flat_map (fun e => match e with SData l => l | _ => [] end) (s_evs i).

(** The characters YAML allows in a stream (production c-printable of YAML 1.1). *)
Definition yaml_char (c : char) : Prop :=
  c = 9 \/ c = 10 \/ c = 13 \/ 32 <= c <= 126 \/ c = 133 \/ 160 <= c <= 55295
  \/ 57344 <= c <= 65533 \/ 65536 <= c <= 1114111.

(** ** Marks *)
(** [before a b]: position [a] is not after [b], by index and by line/column. *)
Definition before (a b : mark) : Prop :=
  m_index a <= m_index b /\ (m_line a < m_line b \/ m_line a = m_line b /\ m_col a <= m_col b).

(** ** Sessions: any sequence of calls of the public methods [scan] and [next]. *)
Inductive call := CallScan | CallNext.
Definition invoke (c : call) : M sst (option token) :=
  match c with
  | CallScan => t <- scan ;; ret (Some t)
  | CallNext => scanner_next
  end.
Fixpoint session (cs : list call) (s : sst) : list (res (option token)) * sst :=
  match cs with
  | [] => ([], s)
  | c :: cs' => match invoke c s with
                | (r, s1) => match session cs' s1 with (l, s2) => (r :: l, s2) end
                end
  end.

(** Outcomes. *)
Definition returned {A} (r : res A) : Prop := match r with Ok _ | Err _ => True | _ => False end.
Definition succeeded {A} (r : res A) : Prop := match r with Ok _ => True | _ => False end.
Definition token_of (r : res (option token)) : list token := match r with Ok (Some t) => [t] | _ => [] end.
Definition tokens_of (os : list (res (option token))) : list token := flat_map token_of os.

Definition is_stream_start_token (t : token) : bool := match t_data t with TStreamStart _ => true | _ => false end.
Definition is_stream_end_token (t : token) : bool := match t_data t with TStreamEnd => true | _ => false end.
Definition is_block_start_token (t : token) : bool :=
  match t_data t with TBlockSequenceStart | TBlockMappingStart => true | _ => false end.
Definition is_block_end_token (t : token) : bool := match t_data t with TBlockEnd => true | _ => false end.
Definition count (p : token -> bool) (l : list token) : nat := length (filter p l).

(** The three known defects of the scanner, and the debug assertion of the UTF-16 reader. *)
Definition known_panic (dbg : bool) (p : panic) : Prop :=
  match p with
  | PTagTodo | PEscapeUnwrap | PReadLineBreak => True
  | PDebugAssert => dbg = true
  | _ => False
  end.
(** The checked i32 counters. *)
Definition overflow_panic (p : panic) : Prop :=
  match p with PFlowLevelOverflow | PIndentOverflow => True | _ => False end.

(** The marks an error carries. *)
Definition error_marks (e : error) : list mark :=
  match e with
  | EScanner _ cm _ pm | EParser _ cm _ pm | EComposer _ cm _ pm => [cm; pm]
  | _ => []
  end.
