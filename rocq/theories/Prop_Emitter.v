(** Prop_Emitter.v -- C26, C27, C28, C36 and C37: what reaches the output handler.

    The sessions are arbitrary lists of calls of [emit] and [flush] on a new emitter with arbitrary
    settings and an arbitrary fault schedule of the output handler, beginning with STREAM-START and
    stopping at the first call that does not succeed. *)
From Coq Require Import ZifyBool ZifyNat ZifyN.
From Verif Require Import Base Utf Chars EState Emitter Document Api IoFacts EmitText EmitRuns EmitIo EmitChars Spec_Emitter EmitSession Utf8Facts Utf16Facts.

Definition with_encoding (e : encoding) (st : settings) : settings :=
  Mk_settings e (st_canonical st) (st_indent st) (st_width st) (st_unicode st) (st_break st).

Lemma session_eq ev l st plan : session ev l (new_emitter st plan) = run_calls l (started ev st plan).
Proof.
  unfold session. cbn [run_calls run_call]. unfold bind. rewrite start_ok. reflexivity.
Qed.
Lemma flush_done e t s s' : holds e t s -> flush s = (Ok tt, s') -> output s' = encode_out e (bom_of e ++ t).
Proof.
  intros H Hf. destruct (is_empty (em_buffer s)) eqn:Eb.
  - destruct H as (He & Hn & Hr & w & Hw & Ho). unfold flush, bind, get in Hf. rewrite Hw, He, Eb in Hf.
    destruct e; [destruct (Hn eq_refl)|..]; injection Hf as <-; unfold output; rewrite Hw, <- Ho;
      (destruct (em_buffer s); [rewrite app_nil_r; reflexivity|discriminate Eb]).
  - destruct (flush_eq s e t H Eb) as (w & Ew & Ef). destruct H as (He & Hn & Hr & w0 & Hw & Ho). assert (w0 = w) as -> by congruence.
    rewrite Hf in Ef. destruct (write_all_cases (encode_out e (em_buffer s)) w) as (w' & [(E & Eo & _)|(k & x & E & _)]); rewrite E in Ef; [|discriminate Ef].
    injection Ef as ->. unfold output. cbn [em_writer set_em_raw set_em_buffer set_em_writer]. rewrite Eo. exact Ho.
Qed.
Lemma holds_prefix e t s : holds e t s -> prefix (output s) (encode_out e (bom_of e ++ t)).
Proof. intros (He & Hn & Hr & w & Hw & Ho). exists (encode_out e (em_buffer s)). unfold output. rewrite Hw. auto. Qed.
Lemma failures_plan st plan : write_failures (new_emitter st plan) = flat_map (fun e => match e with WFail _ x => [x] | WOk => [] end) plan.
Proof. destruct st as [[] ca i w un br]; reflexivity. Qed.
Lemma used_failure s u k x s' : used_by s (u ++ [WFail k x]) s' -> In x (flat_map (fun e => match e with WFail _ x => [x] | WOk => [] end) (plan s)).
Proof. intros ->. rewrite !flat_map_app. apply in_or_app. left. apply in_or_app. right. left. reflexivity. Qed.

(** What happens to a session, given its text. *)
Lemma session_outcome ev st plan l d r c' : runs (run_calls l) (core (started ev st plan)) d r c' ->
  exists r' s', session ev l (new_emitter st plan) = (r', s') /\
    prefix (output s') (encoded (effective_encoding (st_encoding st) ev) d) /\
    ((r' = r /\ forall s'', flush s' = (Ok tt, s'') -> output s'' = encoded (effective_encoding (st_encoding st) ev) d)
     \/ exists x, r' = Err (EIo (OtherIo x)) /\ In x (write_failures (new_emitter st plan))).
Proof.
  intros R. rewrite session_eq. set (e := effective_encoding (st_encoding st) ev).
  assert (He : e <> EncAny) by apply effective_encoding_set.
  destruct (R (started ev st plan) e [] eq_refl (started_holds ev st plan)) as [(s' & u & E & C & H & O & U)|(s' & u & k & x & E & O & U & rest & Hr)].
  - cbn [app] in H. exists r, s'. split; [exact E|]. rewrite <- encoded_eq by exact He. split; [apply holds_prefix, H|]. left. split; [reflexivity|].
    intros s'' Hf. exact (flush_done _ _ _ _ H Hf).
  - exists (Err (EIo (OtherIo x))), s'. split; [exact E|]. cbn [app] in Hr. rewrite <- encoded_eq by exact He. split; [exists rest; exact Hr|].
    right. exists x. split; [reflexivity|]. rewrite failures_plan. exact (used_failure _ _ _ _ _ U).
Qed.

(** C26.  The text of a session and its outcome depend on the settings and on the events only: not
    on the calls of [flush] in between (so not on how full the output buffer is), not on the
    encoding, not on how the handler takes the bytes.  What the handler has received is always a
    prefix of the encoded text, and all of it after a flush; when a write fails the session stops
    with that failure. *)
Theorem C26_buffering_is_transparent st ev es : exists t r, forall enc plan l, emitted l = es ->
  exists r' s', session ev l (new_emitter (with_encoding enc st) plan) = (r', s') /\
    prefix (output s') (encoded (effective_encoding enc ev) t) /\
    ((r' = r /\ forall s'', flush s' = (Ok tt, s'') -> output s'' = encoded (effective_encoding enc ev) t)
     \/ exists x, r' = Err (EIo (OtherIo x)) /\ In x (write_failures (new_emitter (with_encoding enc st) plan))).
Proof.
  destruct (runs_calls es (core (started ev st [])) (started_nice ev st [])) as (d & r & c' & N & R).
  exists d, r. intros enc plan l Hl. exact (session_outcome ev (with_encoding enc st) plan l d r c' (R l Hl)).
Qed.
(** In particular, with a handler that never fails. *)
Corollary C26_without_failures st ev es : exists t r, forall enc l, emitted l = es ->
  exists s' s'', session ev l (new_emitter (with_encoding enc st) []) = (r, s') /\
    prefix (output s') (encoded (effective_encoding enc ev) t) /\
    flush s' = (Ok tt, s'') /\ output s'' = encoded (effective_encoding enc ev) t.
Proof.
  destruct (runs_calls es (core (started ev st [])) (started_nice ev st [])) as (d & r & c' & N & R).
  exists d, r. intros enc l Hl. rewrite session_eq. set (st' := with_encoding enc st).
  assert (He : effective_encoding enc ev <> EncAny) by apply effective_encoding_set.
  destruct (R l Hl (started ev st' []) _ [] eq_refl (started_holds ev st' [])) as [(s' & u & E & C & H & O & U)|(s' & u & k & x & E & O & U & rest & Hr)].
  2:{ destruct u; discriminate U. }
  cbn [app st' with_encoding st_encoding] in H. exists s'.
  destruct (runs_flush (core s') s' _ _ eq_refl H) as [(s2 & u2 & E2 & C2 & H2 & O2 & U2)|(s2 & u2 & k & x & E2 & O2 & U2 & _)].
  2:{ assert (Hp : plan s' = []). { unfold used_by in U. change (plan (started ev st' [])) with (@nil write_ev) in U. destruct u; [symmetry; exact U|discriminate U]. }
      unfold used_by in U2. rewrite Hp in U2. destruct u2; discriminate U2. }
  exists s2. split; [exact E|]. rewrite <- encoded_eq by exact He. split; [apply holds_prefix, H|]. split; [exact E2|]. exact (flush_done _ _ _ _ H E2).
Qed.

(** C27.  The failures of the handler are reported: whatever the state of the emitter, a call of
    [emit], [open], [close], [flush] or [dump] uses up a failure of the handler if and only if it
    returns it. *)
Theorem C27_write_failures_are_reported (m : M est unit) :
  (m = flush \/ (exists e, m = emit e) \/ m = emitter_open \/ m = emitter_close \/ exists d, m = dump d) ->
  forall s r s', m s = (r, s') -> write_failures s = reported r ++ write_failures s'.
Proof.
  intros Hm s r s' E. assert (W : WS m).
  { destruct Hm as [->|[[e ->]|[->|[->|[d ->]]]]]; [apply W_flush|apply W_emit|apply W_open|apply W_close|apply W_dump]. }
  destruct (W s) as (H & _). rewrite E in H. exact H.
Qed.
(** [reported] says what it should. *)
Remark reported_meaning {A} (r : res A) x : In x (reported r) <-> r = Err (EIo (OtherIo x)).
Proof.
  destruct r as [a|[| | | | |[]]|p|]; cbn; split; intros H; try discriminate H; try contradiction; try (destruct H as [<-|[]]; reflexivity).
  injection H as ->. auto.
Qed.

(** C28.  The settings are normalised: a stream is written exactly as with settings in the
    documented ranges. *)
Definition in_range (st : settings) : Prop :=
  st_encoding st <> EncAny /\ (2 <= st_indent st <= 9)%Z /\
  (st_width st = 2147483647 \/ st_width st > 2 * st_indent st)%Z /\ st_break st <> BrAny.
Theorem C28_settings_are_normalised ev st : in_range (effective ev st) /\
  forall plan l, session ev l (new_emitter st plan) = session ev l (new_emitter (effective ev st) plan).
Proof.
  split.
  - unfold in_range, effective. cbn [st_encoding st_indent st_width st_break]. cbv zeta.
    destruct ((2 <=? st_indent st) && (st_indent st <=? 9))%Z eqn:Ei.
    + split; [apply effective_encoding_set|]. split; [lia|]. split; [|destruct (st_break st); discriminate].
      destruct (st_width st <? 0)%Z; [auto|]. destruct (st_width st <=? 2 * st_indent st)%Z eqn:Ew; lia.
    + split; [apply effective_encoding_set|]. split; [lia|]. split; [|destruct (st_break st); discriminate].
      destruct (st_width st <? 0)%Z; [auto|]. destruct (st_width st <=? 2 * 2)%Z eqn:Ew; lia.
  - intros plan l. rewrite !session_eq. f_equal. unfold started. cbv zeta.
    assert (E : effective ev (effective ev st) = effective ev st).
    { unfold effective. cbn [st_encoding st_indent st_width st_break st_canonical st_unicode]. cbv zeta.
      assert (E1 : effective_encoding (effective_encoding (st_encoding st) ev) ev = effective_encoding (st_encoding st) ev) by (destruct (st_encoding st), ev; reflexivity).
      rewrite E1. set (i := if ((2 <=? st_indent st) && (st_indent st <=? 9))%Z then st_indent st else 2%Z).
      assert (Ri : (2 <= i <= 9)%Z) by (unfold i; destruct ((2 <=? st_indent st) && (st_indent st <=? 9))%Z eqn:Ei; lia).
      replace ((2 <=? i) && (i <=? 9))%Z with true by lia.
      assert (E2 : (match match st_break st with BrAny => BrLn | b => b end with BrAny => BrLn | b => b end) = match st_break st with BrAny => BrLn | b => b end) by (destruct (st_break st); reflexivity).
      rewrite E2. f_equal. destruct (st_width st <? 0)%Z eqn:E3.
      - replace (2147483647 <? 0)%Z with false by lia. replace (2147483647 <=? 2 * i)%Z with false by lia. reflexivity.
      - destruct (st_width st <=? 2 * i)%Z eqn:E4.
        + replace (80 <? 0)%Z with false by lia. replace (80 <=? 2 * i)%Z with false by lia. reflexivity.
        + rewrite E3, E4. reflexivity. }
    rewrite E. reflexivity.
Qed.

(** C36.  Without [set_unicode(true)] only ASCII is written. *)
Theorem C36_ascii_output st ev l plan :
  st_unicode st = false -> effective_encoding (st_encoding st) ev = Utf8 -> Forall typed_event (emitted l) ->
  Forall (fun b => b < 128) (output (snd (session ev l (new_emitter st plan)))).
Proof.
  intros Hu He Ht.
  destruct (chars_calls false ascii (fun c h => h) (fun c _ h => match h with or_introl x => False_rect _ (diff_false_true x) | or_intror x => x end)
             (emitted l) Ht (core (started ev st plan))) as (d & r & c' & _ & F & R).
  { rewrite <- Hu. apply started_I. }
  destruct (session_outcome ev st plan l d r c' (R l eq_refl)) as (r' & s' & E & (rest & Hp) & _). rewrite E. cbn [snd].
  rewrite He in Hp. cbn [encoded bom_bytes app] in Hp.
  assert (Fe : Forall (fun b => b < 128) (encode_utf8 d)).
  { clear - F. induction F as [|c d Hc Hd IH]; [constructor|]. cbn [encode_utf8 flat_map]. apply Forall_app. split; [|exact IH].
    unfold encode_utf8_char. unfold ascii in Hc. replace (c <? 128) with true by lia. repeat constructor. exact Hc. }
  rewrite Hp in Fe. apply Forall_app in Fe. apply Fe.
Qed.

Lemma ascii_scalar c : ascii c -> scalar_value c.
Proof. unfold ascii, scalar_value. lia. Qed.
(** C37.  The bytes decode back to the text, which is the same for all three encodings. *)
Definition decodes (e : encoding) (bytes : list byte) (t : list char) : Prop :=
  match e with
  | Utf16Le => exists r, bytes = [255; 254] ++ r /\ decode_utf16_prefix (u16s false r) = t
  | Utf16Be => exists r, bytes = [254; 255] ++ r /\ decode_utf16_prefix (u16s true r) = t
  | _ => from_utf8 bytes = (t, UEnd)
  end.
Theorem C37_output_decodes st ev es : Forall typed_event es -> exists t r, forall enc l, emitted l = es ->
  exists s' s'', session ev l (new_emitter (with_encoding enc st) []) = (r, s') /\
    flush s' = (Ok tt, s'') /\ decodes (effective_encoding enc ev) (output s'') t.
Proof.
  intros Ht.
  destruct (chars_calls (st_unicode st) scalar_value ascii_scalar (fun c h _ => h)
             es Ht (core (started ev st [])) (started_I ev st [])) as (d & r & c' & _ & F & R).
  exists d, r. intros enc l Hl. rewrite session_eq. set (st' := with_encoding enc st).
  assert (He : effective_encoding enc ev <> EncAny) by apply effective_encoding_set.
  destruct (R l Hl (started ev st' []) _ [] eq_refl (started_holds ev st' [])) as [(s' & u & E & C & H & O & U)|(s' & u & k & x & E & O & U & rest & Hr)].
  2:{ destruct u; discriminate U. }
  cbn [app st' with_encoding st_encoding] in H. exists s'.
  destruct (runs_flush (core s') s' _ _ eq_refl H) as [(s2 & u2 & E2 & C2 & H2 & O2 & U2)|(s2 & u2 & k & x & E2 & O2 & U2 & _)].
  2:{ assert (Hp : plan s' = []). { unfold used_by in U. change (plan (started ev st' [])) with (@nil write_ev) in U. destruct u; [symmetry; exact U|discriminate U]. }
      unfold used_by in U2. rewrite Hp in U2. destruct u2; discriminate U2. }
  exists s2. split; [exact E|]. split; [exact E2|]. pose proof (flush_done _ _ _ _ H E2) as Ho. rewrite encoded_eq in Ho by exact He. rewrite Ho.
  assert (Fs : Forall (fun c => is_scalar c = true) d).
  { eapply Forall_impl; [|exact F]. intros c Hc. unfold scalar_value in Hc. unfold is_scalar. lia. }
  destruct (effective_encoding enc ev); [destruct (He eq_refl)|..]; cbn [decodes encoded bom_bytes].
  - pose proof (from_utf8_encode d [] Fs) as X. rewrite app_nil_r in X. cbn in X. rewrite app_nil_r in X. exact X.
  - exists (encode_utf16 false d). split; [reflexivity|]. apply utf16_decodes, F.
  - exists (encode_utf16 true d). split; [reflexivity|]. apply utf16_decodes, F.
Qed.

(** ** The hypotheses are met *)
Definition demo_settings : settings := Mk_settings Utf16Le false 40 (-3) false BrAny.
Definition demo_calls : list call :=
  [CEmit (event_new (EvDocumentStart None [] true)); CFlush;
   CEmit (event_new (EvSequenceStart (Some (lit "a")) None true SeqBlock));
   CEmit (event_new (EvScalar None None (lit "x y") true true SPlain));
   CEmit (event_new (EvScalar None None [233; 10; 128512] true true SAny)); CFlush;
   CEmit (event_new (EvAlias (lit "a")));
   CEmit (event_new EvSequenceEnd); CEmit (event_new (EvDocumentEnd true)); CEmit (event_new EvStreamEnd)].
Example demo_session : exists s', session EncAny demo_calls (new_emitter (with_encoding Utf8 demo_settings) []) = (Ok tt, s') /\
  output s' = lit "&a" ++ [10] ++ lit "- x y" ++ [10; 45; 32; 34] ++ lit "\xE9\n\U0001F600" ++ [34; 10] ++ lit "- *a" ++ [10].
Proof. eexists. split; vm_compute; reflexivity. Qed.
Example demo_failure : exists s', session EncAny demo_calls (new_emitter (with_encoding Utf8 demo_settings) [WOk; WFail 3 42]) = (Err (EIo (OtherIo 42)), s').
Proof. eexists. vm_compute; reflexivity. Qed.
Lemma typed_strb s : forallb is_scalar s = true -> typed_str s.
Proof. intros H. apply Forall_forall. intros c Hc. rewrite forallb_forall in H. specialize (H c Hc). unfold is_scalar in H. unfold scalar_value. lia. Qed.
Example demo_typed : Forall typed_event (emitted demo_calls).
Proof.
  cbn [emitted demo_calls flat_map app].
  repeat (apply Forall_cons; [unfold typed_event; cbn [typed_data e_data event_new opt_all]; repeat apply conj;
    first [exact Logic.I|apply Forall_nil|apply typed_strb; vm_compute; reflexivity]|]). apply Forall_nil.
Qed.

Print Assumptions C26_buffering_is_transparent.
Print Assumptions C26_without_failures.
Print Assumptions C27_write_failures_are_reported.
Print Assumptions C28_settings_are_normalised.
Print Assumptions C36_ascii_output.
Print Assumptions C37_output_decodes.
