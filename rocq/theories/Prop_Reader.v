(** Prop_Reader.v -- C01, C03 (second half), C09: the reader. *)
From Coq Require Import ZifyBool ZifyNat ZifyN.
From Verif Require Import Base Utf Chars State Reader Scanner Parser EState Emitter Document Api Wp ReaderFacts Utf8Facts Spec_Tokens Spec_Scanner ReadFacts IoFacts Spec_Reader Spec_Parser.

(** ** The model's encoder is the UTF-8 of the specification. *)
Ltac Zify.zify_post_hook ::= Z.div_mod_to_equations.
Lemma utf8_of_encode c l : utf8_of c l <-> sc_char c /\ l = encode_utf8_char c.
Proof.
  unfold sc_char, is_scalar, encode_utf8_char. split.
  - intros [c' H|a b H1 H2|a b d H1 H2 H3 H4 H5|a b d f H1 H2 H3 H4 H5]; (split; [lia|]).
    + replace (c' <? 128) with true by lia. reflexivity.
    + replace (_ <? 128) with false by lia. replace (_ <? 2048) with true by lia.
      repeat first [lia|f_equal].
    + replace (_ <? 128) with false by lia. replace (_ <? 2048) with false by lia. replace (_ <? 65536) with true by lia.
      repeat first [lia|f_equal].
    + replace (_ <? 128) with false by lia. replace (_ <? 2048) with false by lia. replace (_ <? 65536) with false by lia.
      repeat first [lia|f_equal].
  - intros [H ->]. destruct (N.ltb_spec c 128); [|destruct (N.ltb_spec c 2048); [|destruct (N.ltb_spec c 65536)]].
    + constructor. lia.
    + replace c with (c / 64 * 64 + c mod 64) at 1 by lia. constructor; lia.
    + replace c with ((c / 4096 * 64 + (c / 64) mod 64) * 64 + c mod 64) at 1 by lia. constructor; lia.
    + replace c with (((c / 262144 * 64 + (c / 4096) mod 64) * 64 + (c / 64) mod 64) * 64 + c mod 64) at 1 by lia. constructor; lia.
Qed.
Ltac Zify.zify_post_hook ::= idtac.
Lemma utf8_text_encode s : forall l, utf8_text s l <-> Forall sc_char s /\ l = encode_utf8 s.
Proof.
  induction s as [|c s IH]; intros l.
  - split; [inversion 1; split; [constructor|reflexivity]|intros [_ ->]; constructor].
  - split.
    + inversion 1 as [|c' l' s' r H1 H2]; subst. apply utf8_of_encode in H1. apply IH in H2. destruct H1 as [H1 ->], H2 as [H2 ->].
      split; [constructor; assumption|reflexivity].
    + intros [H ->]. apply Forall_cons_iff in H. destruct H as [H1 H2]. rewrite encode_utf8_cons. constructor; [apply utf8_of_encode; auto|apply IH; auto].
Qed.
Lemma yaml_okcs tx : Forall yaml_char tx -> Forall okc tx.
Proof. intros H. eapply Forall_impl; [|exact H]. intros c. apply okc_yaml. Qed.

Lemma input_text_start dbg e i tx : input_text e i tx -> text [] tx (scanner_start dbg e i).
Proof.
  intros (Hc & Hy & Hl & l & Ht & Hm). apply utf8_text_encode in Ht. destruct Ht as [_ ->].
  constructor.
  - exact Hc.
  - apply yaml_okcs, Hy.
  - left. reflexivity.
  - discriminate.
  - destruct e; try contradiction.
    + right. split; [reflexivity|]. split; [reflexivity|]. split; [reflexivity|]. destruct Hm as [Hf Hm]. split; [exact Hl|]. split; [|exact Hm].
      intros j [= <-] E r Hr. destruct Hf as [Hf|Hf]; [exact (Hf E)|]. rewrite Hr in Hf. exact Hf.
    + left. split; [reflexivity|]. split; [exact Hl|]. exists tx. split; [reflexivity|]. rewrite app_nil_r. exact Hm.
Qed.

(** ** C01 *)
(** Every request of the scanner is answered without error; what it has taken, what is in the
    buffer and what is still to come make up exactly the text; a request for [n] characters is
    satisfied unless all of the text is there; and the end of the input is signalled only then. *)
Lemma do_ops_text rest ops : forall tx s, text rest tx s ->
  wp (do_ops ops) (fun taken s' => exists tx', tx = taken ++ tx' /\ text rest tx' s') (fun e _ => rerr e /\ bad rest) (fun _ => False) s.
Proof.
  induction ops as [|o ops IH]; intros tx s T; cbn [do_ops].
  - apply wp_ret. exists tx. auto.
  - apply wp_bind. destruct o as [n|]; cbn [do_op].
    + eapply wp_seq; [apply (cache_text n _ _ _ T)| |auto|contradiction]. cbn beta. intros _ s' (T' & _). apply wp_ret. apply wp_bind.
      eapply wp_conseq; [apply (IH _ _ T')| |auto|auto]. cbn beta. intros taken s2 H. apply wp_ret. exact H.
    + unfold wp at 1. destruct (buffer s) as [|c b] eqn:Eb.
      * apply wp_bind. eapply wp_conseq; [apply (IH _ _ T)| |auto|auto]. cbn beta. intros taken s2 H. apply wp_ret. exact H.
      * destruct (text_buffer _ _ _ T) as [x Hx]. rewrite Eb in Hx. cbn [app] in Hx. subst tx.
        pose proof (text_pop _ _ _ _ _ T Eb) as T'. apply wp_bind. eapply wp_conseq; [apply (IH _ _ T')| |auto|auto]. cbn beta.
        intros taken s2 (tx' & E & T2). apply wp_ret. exists tx'. split; [|exact T2]. rewrite E. reflexivity.
Qed.

Theorem C01_exact_text : forall dbg e i tx ops,
  input_text e i tx ->
  exists taken s rest, do_ops ops (scanner_start dbg e i) = (Ok taken, s) /\
    tx = taken ++ buffer s ++ rest /\ (eof s = true -> rest = []) /\
    forall n, exists s' rest', cache n s = (Ok tt, s') /\ tx = taken ++ buffer s' ++ rest' /\
      ((length (buffer s') < n)%nat -> rest' = []).
Proof.
  intros dbg e i tx ops H. pose proof (do_ops_text [] ops tx _ (input_text_start dbg e i tx H)) as W.
  unfold wp in W. destruct (do_ops ops (scanner_start dbg e i)) as [[taken|er|p|] s]; try contradiction.
  - destruct W as (tx' & -> & T). destruct (text_buffer _ _ _ T) as [x Hx]. exists taken, s, x. split; [reflexivity|]. split; [rewrite <- Hx; reflexivity|].
    split; [intros He; destruct (tx_eof _ _ _ T He) as [E _]; rewrite E in Hx; rewrite <- (app_nil_r tx') in Hx at 1; apply app_inv_head in Hx; auto|].
    { intros n. pose proof (cache_text n _ _ _ T) as C. unfold wp in C. destruct (cache n s) as [[[]|er|p|] s']; try contradiction.
      - destruct C as (T' & _ & F). destruct (text_buffer _ _ _ T') as [y Hy]. exists s', y. split; [reflexivity|]. split; [rewrite <- Hy; reflexivity|].
        intros Hn. destruct F as [F|[F _]]; [lia|]. rewrite F in Hy. rewrite <- (app_nil_r tx') in Hy at 1. apply app_inv_head in Hy. auto.
      - destruct C as [_ [Hb _]]. destruct (Hb eq_refl). }
  - destruct W as [_ [Hb _]]. destruct (Hb eq_refl).
Qed.
Print Assumptions C01_exact_text.

(** ** C03 (second half): bytes that are not an allowed character are never passed over. *)
(** The stream delivers the text [tx] and then bytes that do not start with an allowed character:
    as many characters as [tx] has can be obtained, no other character ever is, the end of the input
    is never signalled, and asking for more gives a reader error (or UnexpectedEof when a character
    is truncated by the end of the input). *)
Definition not_a_yaml_char (l : list byte) : Prop := l <> [] /\ forall c b r, utf8_of c b -> l = b ++ r -> ~ yaml_char c.
Theorem C03_bad_bytes_reported : forall dbg i tx rest ops l,
  error_free i -> Forall yaml_char tx -> N.of_nat (length (all_bytes i)) < 9223372036854775807 ->
  utf8_text tx l -> all_bytes i = l ++ rest -> not_a_yaml_char rest ->
  match do_ops ops (scanner_start dbg Utf8 i) with
  | (Ok taken, s) =>
      (exists more, tx = taken ++ buffer s ++ more) /\ eof s = false /\
      forall n, (length tx - length taken < n)%nat ->
        exists er s', cache n s = (Err er, s') /\ ((exists p o v, er = EReader p o v) \/ er = EIo UnexpectedEof)
  | (Err er, _) => (exists p o v, er = EReader p o v) \/ er = EIo UnexpectedEof
  | _ => False
  end.
Proof.
  intros dbg i tx rest ops l Hc Hy Hl Ht Hb Hn. apply utf8_text_encode in Ht. destruct Ht as [_ ->].
  assert (B : bad rest).
  { destruct Hn as [Hn1 Hn2]. split; [exact Hn1|]. intros c r Hsc E Hk. apply (Hn2 c (encode_utf8_char c) r); [apply utf8_of_encode; auto|exact E|].
    apply okc_yaml, Hk. }
  assert (T : text rest tx (scanner_start dbg Utf8 i)).
  { constructor.
    - exact Hc.
    - apply yaml_okcs, Hy.
    - right. exact B.
    - discriminate.
    - left. split; [reflexivity|]. split; [exact Hl|]. exists tx. split; [reflexivity|exact Hb]. }
  pose proof (do_ops_text rest ops tx _ T) as W. unfold wp in W.
  destruct (do_ops ops (scanner_start dbg Utf8 i)) as [[taken|er|p|] s]; try contradiction.
  - destruct W as (tx' & -> & T'). destruct (text_buffer _ _ _ T') as [x Hx]. split; [exists x; rewrite <- Hx; reflexivity|].
    assert (He : eof s = false).
    { destruct (eof s) eqn:E; [|reflexivity]. destruct (tx_eof _ _ _ T' E) as [_ ->]. destruct B as [B _]. destruct (B eq_refl). }
    split; [exact He|]. intros n Hn'. pose proof (cache_text n _ _ _ T') as C. unfold wp in C.
    destruct (cache n s) as [[[]|er|p|] s']; try contradiction.
    + exfalso. destruct C as (T2 & _ & [F|[_ ->]]).
      * destruct (text_buffer _ _ _ T2) as [y Hy2]. rewrite Hy2, !app_length in Hn'. lia.
      * destruct B as [B _]. destruct (B eq_refl).
    + exists er, s'. split; [reflexivity|]. apply C.
  - apply W.
Qed.
Print Assumptions C03_bad_bytes_reported.

(** ** C09: I/O errors are reported, in order, exactly once each. *)
(** What the reader has still to report when the session is over; everything before that has been
    returned by the calls, in the order in which it happened. *)
Lemma session_io cs : forall s os s', session cs s = (os, s') ->
  pend s = flat_map reported os ++ pend s' /\ (enc s <> EncAny -> enc s' <> EncAny).
Proof.
  induction cs as [|c cs IH]; intros s os s'; cbn [session].
  - intros [= <- <-]. auto.
  - assert (F : Fp pend enc (invoke c)).
    { destruct c; cbn [invoke]; [apply Fp_bind; [apply scan_F|intros ?; apply Fp_ret]|apply scanner_next_F]. }
    specialize (F s). unfold Fps in F. destruct (invoke c s) as [r s1]. cbn [fst snd] in F. destruct (session cs s1) as [l s2] eqn:E.
    intros [= <- <-]. destruct (IH _ _ _ E) as [I1 I2]. destruct F as (F1 & _ & F3). cbn [flat_map]. rewrite F1, I1, app_assoc. auto.
Qed.
Theorem C09_scanner_io_errors : forall dbg e i cs os s,
  session cs (scanner_start dbg e i) = (os, s) ->
  exists later, io_failures i = flat_map reported os ++ later /\
    (* the next call reports the next failure if it meets it, and otherwise leaves it pending *)
    forall c r s', invoke c s = (r, s') -> exists later', later = reported r ++ later' /\
      match src s' with Some i' => io_failures i' = later' | None => later' = [] end.
Proof.
  intros dbg e i cs os s H. destruct (session_io _ _ _ _ H) as [H1 _]. exists (pend s). split; [exact H1|].
  intros c r s' Hc. destruct (session_io [c] s [r] s') as [H2 _]; [cbn [session]; rewrite Hc; reflexivity|].
  exists (pend s'). cbn [flat_map] in H2. rewrite app_nil_r in H2. split; [exact H2|]. unfold pend. destruct (src s'); reflexivity.
Qed.
(** Interrupted is never returned once the encoding is known (or if it was set beforehand). *)
Theorem C09_interrupted_is_retried : forall dbg e i cs os s c s',
  session cs (scanner_start dbg e i) = (os, s) -> invoke c s = (Err (EIo Interrupted), s') ->
  e = EncAny /\ enc s = EncAny /\ enc s' = EncAny.
Proof.
  intros dbg e i cs os s c s' H Hc. destruct (session_io _ _ _ _ H) as [_ H2].
  assert (F : Fp pend enc (invoke c)).
  { destruct c; cbn [invoke]; [apply Fp_bind; [apply scan_F|intros ?; apply Fp_ret]|apply scanner_next_F]. }
  specialize (F s). unfold Fps in F. rewrite Hc in F. cbn [fst snd] in F. destruct F as (_ & F2 & F3). specialize (F2 eq_refl).
  assert (E1 : enc s = EncAny) by (destruct (enc s); [reflexivity|exfalso; apply F3; [discriminate|exact F2]..]).
  split; [|split; [exact E1|exact F2]]. change e with (enc (scanner_start dbg e i)).
  destruct (enc (scanner_start dbg e i)); [reflexivity|exfalso; apply H2; [discriminate|exact E1]..].
Qed.
(** The same for the parser and for loading documents. *)
Lemma pinvoke_F c : Fp ppend penc (pinvoke c).
Proof.
  destruct c; cbn [pinvoke]; (apply Fp_bind; [|intros ?; apply Fp_ret]); [apply parse_F|apply parser_next_F|apply load_F].
Qed.
Lemma psession_io cs : forall s os s', psession cs s = (os, s') ->
  ppend s = flat_map reported os ++ ppend s' /\ (penc s <> EncAny -> penc s' <> EncAny).
Proof.
  induction cs as [|c cs IH]; intros s os s'; cbn [psession].
  - intros [= <- <-]. auto.
  - pose proof (pinvoke_F c s) as F. unfold Fps in F. destruct (pinvoke c s) as [r s1]. cbn [fst snd] in F. destruct (psession cs s1) as [l s2] eqn:E.
    intros [= <- <-]. destruct (IH _ _ _ E) as [I1 I2]. destruct F as (F1 & _ & F3). cbn [flat_map]. rewrite F1, I1, app_assoc. auto.
Qed.
Theorem C09_parser_io_errors : forall dbg e i cs os p,
  psession cs (parser_start dbg e i) = (os, p) ->
  exists later, io_failures i = flat_map reported os ++ later /\
    forall c r p', pinvoke c p = (r, p') -> exists later', later = reported r ++ later' /\
      match src (sc p') with Some i' => io_failures i' = later' | None => later' = [] end.
Proof.
  intros dbg e i cs os s H. destruct (psession_io _ _ _ _ H) as [H1 _]. exists (ppend s). split; [exact H1|].
  intros c r s' Hc. destruct (psession_io [c] s [r] s') as [H2 _]; [cbn [psession]; rewrite Hc; reflexivity|].
  exists (ppend s'). cbn [flat_map] in H2. rewrite app_nil_r in H2. split; [exact H2|]. unfold ppend, pend. destruct (src (sc s')); reflexivity.
Qed.
Theorem C09_parser_interrupted_is_retried : forall dbg e i cs os p c p',
  psession cs (parser_start dbg e i) = (os, p) -> pinvoke c p = (Err (EIo Interrupted), p') -> e = EncAny /\ enc (sc p') = EncAny.
Proof.
  intros dbg e i cs os s c s' H Hc. destruct (psession_io _ _ _ _ H) as [_ H2].
  pose proof (pinvoke_F c s) as F. unfold Fps in F. rewrite Hc in F. cbn [fst snd] in F. destruct F as (_ & F2 & F3). specialize (F2 eq_refl).
  split; [|exact F2]. destruct e; [reflexivity|exfalso; apply F3; [apply H2; discriminate|exact F2]..].
Qed.
Print Assumptions C09_scanner_io_errors.
Print Assumptions C09_interrupted_is_retried.
Print Assumptions C09_parser_io_errors.
Print Assumptions C09_parser_interrupted_is_retried.

(** ** The hypotheses are met. *)
(** "a: é€😀" in chunks that cut characters, with interruptions, after a byte order mark. *)
Definition demo_text : str := [97; 58; 32; 233; 8364; 128512; 10].
Example input_text_demo :
  input_text EncAny (Mk_source [239] [SIntr; SData [187; 191; 97; 58; 32; 195]; SData [169; 226]; SIntr; SData [130]; SData [172; 240; 159; 152]; SIntr; SIntr; SData [128; 10]]) demo_text.
Proof.
  split; [repeat constructor; discriminate|]. split; [unfold demo_text; repeat apply Forall_cons; try apply Forall_nil; unfold yaml_char; lia|].
  split; [vm_compute; reflexivity|]. exists (encode_utf8 demo_text). split; [apply utf8_text_encode; split; [repeat constructor|reflexivity]|].
  split; [left; discriminate|]. left. reflexivity.
Qed.
(** A control character, an invalid byte, and a truncated character at the end of the input. *)
Example bad_bytes_demo : not_a_yaml_char [7; 97] /\ not_a_yaml_char [255] /\ not_a_yaml_char [226; 130].
Proof.
  assert (K : forall l, bad l -> not_a_yaml_char l).
  { intros l [H1 H2]. split; [exact H1|]. intros c b r Hu E Hy. apply utf8_of_encode in Hu. destruct Hu as [Hs ->]. apply (H2 c r Hs E), okc_yaml, Hy. }
  split; [|split]; apply K.
  - apply (bad_char 7 [97]); [reflexivity|discriminate].
  - apply bad_not_char; [discriminate|]. apply (stuck_not_char _ (UInvalid [255])). reflexivity.
  - apply bad_not_char; [discriminate|]. apply (stuck_not_char _ (UIncomplete [226; 130])). reflexivity.
Qed.
(** Two failures, both reported by calls of the parser, with progress in between. *)
Example io_errors_demo :
  fst (psession [CallParse; CallParse; CallLoad; CallPNext; CallPNext; CallParse]
    (parser_start true Utf8 (Mk_source (lit "- a") [SFail 3; SIntr; SData (lit " b"); SFail 4; SData (lit "c")]))) <> [] /\
  flat_map reported (fst (psession [CallParse; CallParse; CallParse; CallPNext; CallPNext; CallParse; CallParse; CallParse]
    (parser_start true Utf8 (Mk_source (lit "- a") [SFail 3; SIntr; SData (lit " b"); SFail 4; SData (lit "c")])))) = [3; 4].
Proof. vm_compute. split; [discriminate|reflexivity]. Qed.
