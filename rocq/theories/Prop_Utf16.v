(** Prop_Utf16.v -- C38: what becomes of UTF-16 input.  The property is false (Prop_Findings); here
    are a hypothesis on the reads under which it holds, and one under which it always fails. *)
From Coq Require Import ZifyBool ZifyNat ZifyN.
From Verif Require Import Base Utf Chars State Reader Scanner Parser EState Emitter Document Api Wp ReaderFacts Utf8Facts Utf16Facts Spec_Tokens Spec_Scanner ReadFacts Spec_Reader Spec_Parser ReadUtf16.

(** ** If every read gives one byte, the text is decoded exactly (compare C01_exact_text). *)
(** What is missing from C38: reads that give more than one byte, for which it is false. *)
Theorem C38_utf16_one_byte_partial : forall dbg be e i tx ops,
  input_text16 be e i tx ->
  exists taken s rest, do_ops ops (scanner_start dbg e i) = (Ok taken, s) /\
    tx = taken ++ buffer s ++ rest /\ (eof s = true -> rest = []) /\
    forall n, exists s' rest', cache n s = (Ok tt, s') /\ tx = taken ++ buffer s' ++ rest' /\
      ((length (buffer s') < n)%nat -> rest' = []).
Proof.
  intros dbg be e i tx ops H. pose proof (do_ops_text16 be ops tx _ (input_text16_start dbg e be i tx H)) as W.
  unfold wp in W. destruct (do_ops ops (scanner_start dbg e i)) as [[taken|er|p|] s]; try contradiction.
  destruct W as (tx' & -> & T). destruct (text16_buffer _ _ _ T) as [x Hx]. exists taken, s, x. split; [reflexivity|]. split; [rewrite <- Hx; reflexivity|].
  split; [intros He; pose proof (t6_eof _ _ _ T He) as E; rewrite E in Hx; rewrite <- (app_nil_r tx') in Hx at 1; apply app_inv_head in Hx; auto|].
  intros n. pose proof (cache_text16 n _ _ _ T) as C. unfold wp in C. destruct (cache n s) as [[[]|er|p|] s']; try contradiction.
  destruct C as (T' & F). destruct (text16_buffer _ _ _ T') as [y Hy]. exists s', y. split; [reflexivity|]. split; [rewrite <- Hy; reflexivity|].
  intros Hn. destruct F as [F|F]; [lia|]. rewrite F in Hy. rewrite <- (app_nil_r tx') in Hy at 1. apply app_inv_head in Hy. auto.
Qed.
Print Assumptions C38_utf16_one_byte_partial.

(** ** If all of it comes in one piece, it never is. *)
(** Whatever the bytes after the byte order mark (or, if the encoding was requested, whatever the
    bytes, with [mark = []]), and whatever is asked of the reader before: the end of the input is
    never signalled, and asking for more characters than there are bytes always fails. *)
Theorem C38_utf16_in_one_piece_refuted : forall dbg (be : bool) e (mark l : list byte) ops,
  l <> [] -> Forall (fun b => b < 256) l ->
  e = EncAny /\ mark = (if be then [254; 255] else [255; 254]) \/ e = (if be then Utf16Be else Utf16Le) /\ mark = [] ->
  match do_ops ops (scanner_start dbg e (slice_source (mark ++ l))) with
  | (Ok taken, s) => eof s = false /\ forall n, (length (mark ++ l) < n)%nat -> fst (cache n s) <> Ok tt
  | _ => True
  end.
Proof.
  intros dbg be e mark l ops Hne Ho He.
  assert (O : piece be (scanner_start dbg e (slice_source (mark ++ l)))).
  { destruct He as [[-> ->]|[-> ->]].
    - right. split; [exists l; split; [destruct be; reflexivity|auto]|]. split; reflexivity.
    - left. split; [exists l; auto|]. split; [destruct be; reflexivity|reflexivity]. }
  assert (V : vol (scanner_start dbg e (slice_source (mark ++ l))) = length (mark ++ l)).
  { unfold vol, sbytes, src_bytes. cbn. clear. generalize (mark ++ l). intros x. lia. }
  pose proof (do_ops_piece be ops _ O) as W. unfold wp in W.
  destruct (do_ops ops _) as [[taken|er|p|] s]; try exact Logic.I. destruct W as [P M]. destruct (piece_src _ _ P) as [Hs Hf]. split; [exact Hf|].
  intros n Hn Hc. pose proof (cache_piece n be s P) as C1. pose proof (cache_wp n s Hs) as C2. unfold wp in C1, C2.
  destruct (cache n s) as [[[]|er|p|] s']; cbn [fst] in Hc; try discriminate. rename C1 into P'. destruct C2 as (_ & R & [A|A]).
  - pose proof (rdm_vol _ _ R) as K. unfold vol in K, M, V. unfold byte, char in *. lia.
  - destruct (piece_src _ _ P') as [_ K]. congruence.
Qed.
Print Assumptions C38_utf16_in_one_piece_refuted.

(** ** The hypotheses are met. *)
(** "- é€😀" in UTF-16LE, one byte at a time, with interruptions. *)
Definition demo16 : str := [45; 32; 233; 8364; 128512; 10].
Definition demo16_bytes : list byte := [255; 254] ++ enc16 false demo16.
Definition demo16_source : source := Mk_source [] (flat_map (fun b => [SData [b]; SIntr]) demo16_bytes).
Example demo16_input : input_text16 false EncAny demo16_source demo16.
Proof.
  split; [split; [apply Nat.le_0_l|repeat constructor]|]. split; [unfold demo16; repeat apply Forall_cons; try apply Forall_nil; unfold yaml_char; lia|].
  split; [vm_compute; reflexivity|]. exists (enc16 false demo16). split; [apply encode_utf16_text; repeat constructor|].
  right. split; [reflexivity|]. split; [right; exact Logic.I|]. reflexivity.
Qed.
Example demo16_tokens : map t_data (tokens_of (fst (calls scanner_next 8 (scanner_start true EncAny demo16_source)))) =
  [TStreamStart Utf16Le; TBlockSequenceStart; TBlockEntry; TScalar [233; 8364; 128512] SPlain; TBlockEnd; TStreamEnd].
Proof. vm_compute. reflexivity. Qed.
(** In one piece: "ab" comes out as "abb", and what follows is an error. *)
Example in_one_piece_demo : exists taken s,
  do_ops [Ask 1; Take; Ask 2; Take; Take] (scanner_start false EncAny (slice_source ([255; 254] ++ enc16 false [97; 98]))) = (Ok taken, s) /\ taken = [97; 98; 98] /\ eof s = false.
Proof. eexists _, _. split; [vm_compute; reflexivity|]. split; reflexivity. Qed.
