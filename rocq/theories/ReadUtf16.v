(** ReadUtf16.v -- UTF-16 input whose bytes are delivered one at a time. *)
From Coq Require Import ZifyBool ZifyNat ZifyN.
From Verif Require Import Base Utf Chars State Reader Scanner Parser EState Emitter Document Api Wp ReaderFacts Utf8Facts EmitChars Utf16Facts Spec_Tokens Spec_Scanner ReadFacts Spec_Reader Spec_Parser.

(** ** The encoding *)
Definition units16 (be : bool) (c : char) : list byte := flat_map (u16_bytes be) (encode_utf16_char c).
Ltac Zify.zify_post_hook ::= Z.div_mod_to_equations.
Lemma utf16_of_encode be c l : utf16_of be c l -> sc_char c /\ l = units16 be c.
Proof.
  unfold sc_char, is_scalar, units16, encode_utf16_char. intros [u H1 H2|x y H1 H2].
  - split; [lia|]. replace (u <? 65536) with true by lia. cbn [flat_map]. rewrite app_nil_r. unfold utf16_unit, u16_bytes. reflexivity.
  - split; [lia|]. replace (_ <? 65536) with false by lia. cbn [flat_map]. rewrite app_nil_r.
    replace ((65536 + x * 1024 + y - 65536) / 1024) with x by lia. replace ((65536 + x * 1024 + y - 65536) mod 1024) with y by lia. reflexivity.
Qed.
Lemma encode_utf16_of be c : sc_char c -> utf16_of be c (units16 be c).
Proof.
  unfold sc_char, is_scalar, units16, encode_utf16_char. intros H. destruct (N.ltb_spec c 65536).
  - cbn [flat_map]. rewrite app_nil_r. apply (V1 be c); lia.
  - cbn [flat_map]. rewrite app_nil_r. replace c with (65536 + (c - 65536) / 1024 * 1024 + (c - 65536) mod 1024) at 1 by lia.
    apply (V2 be ((c - 65536) / 1024) ((c - 65536) mod 1024)); lia.
Qed.
(** What the decoder does with the two or four bytes of a character. *)
Lemma units16_cases be c : sc_char c ->
  (exists a b, units16 be c = [a; b] /\ u16_of be [a; b] = c /\ is_surrogate c = false) \/
  (exists a b d e, units16 be c = [a; b; d; e] /\ is_surrogate (u16_of be [a; b]) = true /\ decode_utf16_pair (u16_of be [a; b]) (u16_of be [d; e]) = inl c).
Proof.
  unfold sc_char, is_scalar, units16, encode_utf16_char. intros H. destruct (N.ltb_spec c 65536).
  - left. cbn [flat_map]. rewrite app_nil_r. destruct be; cbn [u16_bytes]; eexists _, _; (split; [reflexivity|]); unfold u16_of, u16s, is_surrogate; cbn [nth]; split; lia.
  - right. cbn [flat_map]. rewrite app_nil_r. destruct be; cbn [u16_bytes app]; eexists _, _, _, _; (split; [reflexivity|]); unfold u16_of, u16s; cbn [nth];
    set (x := (c - 65536) / 1024); set (y := (c - 65536) mod 1024);
    replace ((55296 + x) / 256 * 256 + (55296 + x) mod 256) with (55296 + x) by lia;
    replace ((56320 + y) / 256 * 256 + (56320 + y) mod 256) with (56320 + y) by lia;
    (split; [unfold is_surrogate, x; lia|]); unfold decode_utf16_pair, is_low_surrogate;
    replace ((56320 <=? 55296 + x) && (55296 + x <=? 57343)) with false by (unfold x; lia);
    replace ((56320 <=? 56320 + y) && (56320 + y <=? 57343)) with true by (unfold y; lia); f_equal; unfold x, y; lia.
Qed.
Ltac Zify.zify_post_hook ::= idtac.
Definition enc16 (be : bool) (t : str) : list byte := flat_map (units16 be) t.
Lemma utf16_text_encode be s : forall l, utf16_text be s l -> Forall sc_char s /\ l = enc16 be s.
Proof.
  induction s as [|c s IH]; intros l; inversion 1 as [|c' l' s' r H1 H2]; subst; [split; [constructor|reflexivity]|].
  apply utf16_of_encode in H1. destruct H1 as [H1 ->]. apply IH in H2. destruct H2 as [H2 ->]. split; [constructor; assumption|reflexivity].
Qed.
Lemma encode_utf16_text be s : Forall sc_char s -> utf16_text be s (enc16 be s).
Proof. induction 1 as [|c s Hc H IH]; [constructor|]. cbn [enc16 flat_map]. constructor; [apply encode_utf16_of, Hc|exact IH]. Qed.

(** ** Streams of single bytes *)
Definition single (i : source) : Prop := (length (s_cur i) <= 1)%nat /\ Forall (fun e => match e with SData l => length l = 1%nat | SIntr => True | SFail _ => False end) (s_evs i).
Lemma single_clean i : single i -> clean i.
Proof. intros [_ H]. eapply Forall_impl; [|exact H]. intros [l| |k] K; cbn in *; auto. intros ->. discriminate. Qed.
Lemma fill_retry_single i l i' : fill_buf_retry i = (inl l, i') -> single i -> single i' /\ (length l <= 1)%nat.
Proof.
  unfold fill_buf_retry, single. destruct i as [cur evs]. cbn [s_cur s_evs]. destruct cur as [|b cur].
  - intros H [_ K]. revert l i' H. induction evs as [|[d| |k] evs IH]; cbn [fill_buf_retry_go]; intros l i'.
    + intros [= <- <-]. cbn. auto.
    + intros [= <- <-]. apply Forall_cons_iff in K. cbn [s_cur s_evs]. destruct K as [K1 K2]. rewrite K1. auto.
    + apply Forall_cons_iff in K. apply IH, K.
    + discriminate.
  - intros [= <- <-] K. split; [exact K|apply K].
Qed.
Lemma fill_single i l i' : fill_buf i = (inl l, i') -> single i -> single i' /\ (length l <= 1)%nat.
Proof.
  unfold fill_buf, single. destruct i as [cur evs]. cbn [s_cur s_evs]. destruct cur as [|b cur].
  - destruct evs as [|[d| |k] evs]; intros [= <- <-] [_ K]; cbn [s_cur s_evs length]; auto.
    apply Forall_cons_iff in K. destruct K as [K1 K2]. rewrite K1. auto.
  - intros [= <- <-] K. split; [exact K|apply K].
Qed.
Lemma read_single_go evs : forall n acc cur l i', read_exact_go evs n acc cur = (inl l, i') -> (length cur <= 1)%nat ->
  Forall (fun e => match e with SData l => length l = 1%nat | SIntr => True | SFail _ => False end) evs -> single i'.
Proof.
  induction evs as [|ev evs IH]; intros n acc cur l i'; cbn [read_exact_go].
  - destruct (Nat.eqb _ n); [|discriminate]. intros [= <- <-] H _. split; [cbn [s_cur]; rewrite skipn_length; lia|constructor].
  - destruct (Nat.eqb _ n).
    + intros [= <- <-] H K. split; [cbn [s_cur]; rewrite skipn_length; lia|exact K].
    + destruct ev as [[|b d]| |k]; try discriminate; intros H Hc K; apply Forall_cons_iff in K; destruct K as [K1 K2]; (eapply (IH _ _ _ _ _ H); [|exact K2]); [rewrite K1; apply le_n|cbn; auto].
Qed.
Lemma read_single n i l i' : read_exact n i = (inl l, i') -> single i -> single i'.
Proof. intros H [K1 K2]. exact (read_single_go _ _ _ _ _ _ H K1 K2). Qed.
(** [n] bytes are there. *)
Lemma read_there n i x r : single i -> all_bytes i = x ++ r -> length x = n ->
  exists i', read_exact n i = (inl x, i') /\ all_bytes i' = r /\ single i'.
Proof.
  intros Hs Hb Hl. destruct (read_exact n i) as [[l|e] i'] eqn:E.
  - destruct (read_exact_bytes _ _ _ _ E) as (H1 & H2 & _). rewrite Hb in H1. exists i'.
    assert (l = x) as ->.
    { assert (K : firstn n (l ++ all_bytes i') = firstn n (x ++ r)) by (rewrite H1; reflexivity).
      rewrite <- H2 in K at 1. rewrite <- Hl in K at 1. rewrite !firstn_app, !firstn_all, !Nat.sub_diag, !app_nil_r in K. exact K. }
    split; [reflexivity|]. split; [apply app_inv_head in H1; auto|]. exact (read_single _ _ _ _ E Hs).
  - exfalso. destruct (read_exact_err _ _ _ _ E (single_clean _ Hs)) as [_ K]. rewrite Hb, app_length in K. unfold byte in *. lia.
Qed.

(** ** Filling the buffer *)
Definition e16 (be : bool) : encoding := if be then Utf16Be else Utf16Le.
Definition bom16 (be : bool) : list byte := if be then [254; 255] else [255; 254].
Definition singles (s : sst) : Prop := match src s with Some i => single i | None => False end.
Record text16 (be : bool) (tx : str) (s : sst) : Prop := {
  t6_single : singles s;
  t6_ok : Forall okc tx;
  t6_eof : eof s = true -> buffer s = tx;
  t6_bytes :
    (enc s = e16 be /\ offset s + N.of_nat (length (sb s)) < limit /\ exists x, tx = buffer s ++ x /\ sb s = enc16 be x)
    \/ (enc s = EncAny /\ buffer s = [] /\ offset s + N.of_nat (length (sb s)) < limit /\
        (forall i, src s = Some i -> s_cur i = [] -> forall r, s_evs i <> SIntr :: r) /\
        sb s = bom16 be ++ enc16 be tx) }.
Definition full16 (n : nat) (tx : str) (s : sst) : Prop := (n <= length (buffer s))%nat \/ buffer s = tx.

Lemma read_more_text16 be tx s : text16 be tx s -> enc s = e16 be -> eof s = false ->
  wp read_more (fun b s' => text16 be tx (if b : bool then s' else set_eof true s') /\ enc s' = e16 be /\ (b = false -> buffer s' = tx) /\
                            (b = true -> (ssize s' < ssize s)%nat)) (fun _ _ => False) (fun _ => False) s.
Proof.
  intros T He Hf. pose proof (t6_single _ _ _ T) as Hs. unfold singles in Hs. destruct (src s) as [i|] eqn:Ei; [|contradiction].
  assert (Hsb : sb s = all_bytes i) by (unfold sb; rewrite Ei; reflexivity).
  destruct (t6_bytes _ _ _ T) as [(_ & Hl & x & Etx & Eb)|(H & _)]; [|rewrite He in H; destruct be; discriminate].
  assert (Hu : utf16 (enc s) = true) by (rewrite He; destruct be; reflexivity).
  unfold read_more. apply wp_bind, wp_gets. rewrite He.
  replace (match e16 be with EncAny => panics PUnreachable | Utf8 => read_utf8_buffered | Utf16Le => read_utf16_buffered false | Utf16Be => read_utf16_buffered true end)
    with (read_utf16_buffered be) by (destruct be; reflexivity).
  eapply wp_conseq with (Q := fun (b : bool) s' => (text16 be tx (if b then s' else set_eof true s') /\ enc s' = e16 be /\ (b = false -> buffer s' = tx)) /\ (rd s s' /\ rdm s s' /\ (b = true -> (ssize s' < ssize s)%nat)))
    (E := fun _ _ => False) (P := fun _ => False); [|intros b s' [(A1 & A2 & A3) (_ & _ & A4)]; auto|auto|auto].
  assert (Hne : src s <> None) by congruence.
  eapply wp_conseq; [apply wp_and; [|apply (read_utf16_buffered_wp be s Hne Hu)]| | |]; cbn beta.
  2: intros b s' H; exact H. 2: intros e s' [H _]; exact H. 2: intros p [H _]; exact H.
  unfold read_utf16_buffered. apply wp_bind. eapply wp_io; [exact Ei| |].
  2:{ intros e i' Hf'. exact (fill_buf_retry_err _ _ _ Hf' (single_clean _ Hs)). }
  intros l i1 Hf'. pose proof (fill_retry_single _ _ _ Hf' Hs) as [Hs1 Hl1]. apply fill_buf_retry_bytes in Hf'. destruct Hf' as (Hcur & Hab & Hc1).
  destruct (Hc1 (single_clean _ Hs)) as [_ Hnil]. clear Hc1.
  destruct l as [|b [|b' l]]; [| |cbn in Hl1; lia].
  - apply wp_ret. rewrite Hsb, (Hnil eq_refl) in Eb.
    assert (x = []) as ->.
    { destruct x as [|c x]; [reflexivity|]. exfalso. cbn [enc16 flat_map] in Eb. symmetry in Eb. apply app_eq_nil in Eb. destruct Eb as [Eb _].
      assert (Hc : sc_char c). { apply okc_scalar. pose proof (t6_ok _ _ _ T) as K. rewrite Etx in K. apply Forall_app in K. destruct K as [_ K]. apply Forall_cons_iff in K. apply K. }
      destruct (units16_cases be c Hc) as [(? & ? & E & _)|(? & ? & ? & ? & E & _)]; rewrite E in Eb; discriminate. }
    rewrite app_nil_r in Etx. split; [|split; [exact He|intros _; cbn; symmetry; exact Etx]].
    constructor.
    + exact Hs1.
    + apply (t6_ok _ _ _ T).
    + intros _. cbn. symmetry. exact Etx.
    + left. split; [exact He|]. change (sb (set_eof true (set_src (Some i1) s))) with (all_bytes i1). rewrite Hab, (Hnil eq_refl).
      cbn [offset set_eof set_src length]. split; [rewrite Hsb in Hl; lia|]. exists []. cbn [buffer set_eof set_src]. rewrite app_nil_r. auto.
  - cbn [u16s decode_utf16_prefix push_chars_utf16]. apply wp_bind, wp_ret. cbn [N.eqb negb]. apply wp_bind, wp_get. cbn [is_empty negb]. rewrite andb_false_r.
    apply wp_bind, wp_ret, wp_bind.
    assert (Hx : exists c y, x = c :: y).
    { destruct x as [|c y]; [|eauto]. exfalso. cbn in Eb. rewrite Hsb, <- Hab, all_bytes_eq, Hcur in Eb. discriminate. }
    destruct Hx as (c & y & ->). cbn [enc16 flat_map] in Eb. fold (enc16 be y) in Eb. rewrite Hsb, <- Hab in Eb.
    pose proof (t6_ok _ _ _ T) as Hok. rewrite Etx in Hok. apply Forall_app in Hok. destruct Hok as [_ Hok]. apply Forall_cons_iff in Hok. destruct Hok as [Hc _].
    assert (Fin : forall n i2, N.of_nat (length (units16 be c)) = n -> all_bytes i2 = enc16 be y -> single i2 ->
       text16 be tx (set_offset (offset s + n) (set_buffer (buffer s ++ [c]) (set_src (Some i2) s)))).
    { intros n i2 Hn Hb2 Hs2. constructor.
      - exact Hs2.
      - apply (t6_ok _ _ _ T).
      - cbn. intros H. change (eof s = true) in H. congruence.
      - left. split; [exact He|]. change (sb _) with (all_bytes i2). rewrite Hb2. cbn [offset set_offset].
        rewrite Hsb, <- Hab, Eb, app_length in Hl. split; [unfold byte in *; lia|]. exists y. cbn [buffer set_offset set_buffer]. rewrite <- app_assoc. auto. }
    unfold read_utf16_char_unbuffered. apply wp_bind.
    destruct (units16_cases be c (okc_scalar c Hc)) as [(a1 & a2 & Eu & Ec & Es)|(a1 & a2 & a3 & a4 & Eu & Es & Ec)]; rewrite Eu in Eb, Fin.
    + destruct (read_there 2 i1 [a1; a2] (enc16 be y) Hs1 Eb eq_refl) as (i2 & Er & Hb2 & Hs2).
      eapply wp_io; [reflexivity| |]; rewrite Er; [|discriminate]. intros b1 i2' [= <- <-]. rewrite Ec, Es. apply wp_bind, wp_gets, wp_bind.
      unfold wp at 1, push_char. rewrite Hc. apply wp_modify, wp_ret. split; [exact (Fin 2 i2 eq_refl Hb2 Hs2)|]. split; [exact He|discriminate].
    + destruct (read_there 2 i1 [a1; a2] ([a3; a4] ++ enc16 be y) Hs1 Eb eq_refl) as (i2 & Er & Hb2 & Hs2).
      eapply wp_io; [reflexivity| |]; rewrite Er; [|discriminate]. intros b1 i2' [= <- <-]. rewrite Es. apply wp_bind.
      destruct (read_there 2 i2 [a3; a4] (enc16 be y) Hs2 Hb2 eq_refl) as (i3 & Er3 & Hb3 & Hs3).
      eapply wp_io; [reflexivity| |]; rewrite Er3; [|discriminate]. intros b2 i3' [= <- <-]. apply wp_bind, wp_gets. rewrite Ec.
      apply wp_bind. unfold wp at 1, push_char. rewrite Hc. apply wp_modify, wp_ret. split; [exact (Fin 4 i3 eq_refl Hb3 Hs3)|]. split; [exact He|discriminate].
Qed.

Lemma fill_loop_text16 len be tx s : text16 be tx s -> enc s = e16 be ->
  wp (fill_loop len) (fun _ s' => text16 be tx s' /\ enc s' = e16 be /\ full16 len tx s') (fun _ _ => False) (fun _ => False) s.
Proof.
  intros T He. unfold fill_loop, loop.
  apply (wp_loopM (fun _ s' => text16 be tx s' /\ enc s' = e16 be) ssize).
  2:{ auto. }
  2:{ rewrite meas_eq. lia. }
  intros _ s1 (T1 & E1). apply wp_bind, wp_get.
  destruct (Nat.ltb_spec (length (buffer s1)) len) as [Hl|Hl].
  - destruct (eof s1) eqn:Heof.
    + apply wp_ret. split; [exact T1|]. split; [exact E1|]. right. apply (t6_eof _ _ _ T1 Heof).
    + eapply wp_seq; [apply (read_more_text16 _ _ _ T1 E1 Heof)| |auto|contradiction]. cbn beta.
      intros b s2 (T2 & E2 & Hb & Hm). destruct b.
      * apply wp_ret. auto.
      * apply wp_bind, wp_modify, wp_ret. split; [exact T2|]. split; [exact E2|]. right. exact (Hb eq_refl).
  - apply wp_ret. split; [exact T1|]. split; [exact E1|]. left. lia.
Qed.

Lemma determine_text16 be tx s : text16 be tx s -> enc s = EncAny ->
  wp determine_encoding (fun o s' => o = Some (e16 be) /\ text16 be tx (set_enc (e16 be) s')) (fun _ _ => False) (fun _ => False) s.
Proof.
  intros T He. pose proof (t6_single _ _ _ T) as Hs. unfold singles in Hs. destruct (src s) as [i|] eqn:Ei; [|contradiction].
  destruct (t6_bytes _ _ _ T) as [(H & _)|(_ & Hbuf & Hl & Hfirst & Hby)]; [rewrite He in H; destruct be; discriminate|]. unfold sb in Hl, Hby. rewrite Ei in Hl, Hby.
  specialize (Hfirst i Ei).
  unfold determine_encoding. apply wp_bind. eapply wp_io; [exact Ei| |].
  2:{ intros e i' Hf. unfold fill_buf in Hf. destruct (s_cur i); [|discriminate]. specialize (Hfirst eq_refl).
      destruct Hs as [_ Hs]. destruct (s_evs i) as [|[d| |k] r]; try discriminate.
      - destruct (Hfirst r eq_refl).
      - apply Forall_cons_iff in Hs. apply Hs. }
  intros l i1 Hf. pose proof (fill_single _ _ _ Hf Hs) as [Hs1 Hl1]. apply fill_buf_bytes in Hf. destruct Hf as (Hcur & Hab & Hcl).
  destruct (Hcl (single_clean _ Hs)) as [_ Hnil]. rewrite Hby in Hab.
  destruct l as [|b [|b' l]]; [specialize (Hnil eq_refl); rewrite Hby in Hnil; destruct be; discriminate| |cbn in Hl1; lia].
  assert (Hb : b = hd 0 (bom16 be)).
  { rewrite all_bytes_eq, Hcur in Hab. cbn [app] in Hab. destruct be; cbn [bom16 app hd] in *; congruence. }
  destruct (read_there 2 i1 (bom16 be) (enc16 be tx) Hs1 Hab ltac:(destruct be; reflexivity)) as (i2 & Er & Hb2 & Hs2).
  assert (Fin : text16 be tx (set_enc (e16 be) (set_src (Some i2) (set_src (Some i1) s)))).
  { constructor; cbn.
    - exact Hs2.
    - apply (t6_ok _ _ _ T).
    - apply (t6_eof _ _ _ T).
    - left. split; [reflexivity|]. change (sb _) with (all_bytes i2). rewrite Hb2. rewrite Hby, app_length in Hl. split; [unfold byte in *; lia|].
      exists tx. rewrite Hbuf. auto. }
  replace (b =? 239) with false by (rewrite Hb; destruct be; reflexivity).
  replace ((b =? 255) || (b =? 254)) with true by (rewrite Hb; destruct be; reflexivity).
  apply wp_bind. eapply wp_io; [reflexivity| |]; rewrite Er; [|discriminate]. intros bm i2' [= <- <-].
  destruct be; cbn [bytes_eqb str_eqb bom16 N.eqb Pos.eqb andb]; apply wp_ret; (split; [reflexivity|exact Fin]).
Qed.

Lemma cache_text16 len be tx s : text16 be tx s ->
  wp (cache len) (fun _ s' => text16 be tx s' /\ full16 len tx s') (fun _ _ => False) (fun _ => False) s.
Proof.
  intros T. unfold cache. apply wp_bind, wp_get.
  destruct (Nat.leb_spec len (length (buffer s))) as [Hl|Hl].
  { apply wp_ret. split; [exact T|]. left; exact Hl. }
  unfold update_buffer. apply wp_bind, wp_get.
  pose proof (t6_single _ _ _ T) as Hs. unfold singles in Hs. destruct (src s) as [i|] eqn:Ei; [|contradiction].
  destruct (Nat.leb_spec len (length (buffer s))) as [Hl'|_]; [lia|].
  apply wp_bind. eapply wp_conseq with
    (Q := fun done s' => done = false /\ text16 be tx s' /\ enc s' = e16 be)
    (E := fun _ _ => False) (P := fun _ => False); [| |contradiction|contradiction].
  - destruct (encoding_eqb (enc s) EncAny) eqn:He.
    + apply encoding_eqb_eq in He. eapply wp_seq; [apply (determine_text16 _ _ _ T He)| |contradiction|contradiction].
      cbn beta. intros o s1 (-> & Ht). apply wp_bind, wp_modify, wp_ret. auto.
    + apply wp_ret. split; [reflexivity|]. split; [exact T|].
      destruct (t6_bytes _ _ _ T) as [(H & _)|(H & _)]; [exact H|]. rewrite H in He. discriminate.
  - cbn beta. intros done s1 (-> & T1 & E1).
    eapply wp_seq; [apply (fill_loop_text16 len be tx s1 T1 E1)| |auto|contradiction]. cbn beta.
    intros b s2 (T2 & E2 & F2). destruct b; [apply wp_ret; auto|].
    apply wp_bind, wp_gets. change 9223372036854775807 with limit. destruct (N.leb_spec limit (offset s2)) as [Hlim|_]; [|apply wp_ret; auto].
    exfalso. destruct (t6_bytes _ _ _ T2) as [(_ & H & _)|(H & _)]; [lia|rewrite E2 in H; destruct be; discriminate].
Qed.

Lemma text16_pop be c tx b s : text16 be (c :: tx) s -> buffer s = c :: b -> text16 be tx (set_buffer b s).
Proof.
  intros T Hb. constructor; cbn.
  - apply (t6_single _ _ _ T).
  - pose proof (t6_ok _ _ _ T) as H. apply Forall_cons_iff in H. apply H.
  - intros H. pose proof (t6_eof _ _ _ T H). congruence.
  - destruct (t6_bytes _ _ _ T) as [(H1 & H2 & x & H3 & H4)|(_ & H & _)]; [|congruence]. left. split; [exact H1|]. split; [exact H2|].
    exists x. split; [|exact H4]. rewrite Hb in H3. cbn [app] in H3. congruence.
Qed.
Lemma text16_buffer be tx s : text16 be tx s -> exists x, tx = buffer s ++ x.
Proof. intros T. destruct (t6_bytes _ _ _ T) as [(_ & _ & x & H & _)|(_ & H & _)]; [eauto|]. exists tx. rewrite H. reflexivity. Qed.
Lemma do_ops_text16 be ops : forall tx s, text16 be tx s ->
  wp (do_ops ops) (fun taken s' => exists tx', tx = taken ++ tx' /\ text16 be tx' s') (fun _ _ => False) (fun _ => False) s.
Proof.
  induction ops as [|o ops IH]; intros tx s T; cbn [do_ops].
  - apply wp_ret. exists tx. auto.
  - apply wp_bind. destruct o as [n|]; cbn [do_op].
    + eapply wp_seq; [apply (cache_text16 n _ _ _ T)| |auto|contradiction]. cbn beta. intros _ s' (T' & _). apply wp_ret. apply wp_bind.
      eapply wp_conseq; [apply (IH _ _ T')| |auto|auto]. cbn beta. intros taken s2 H. apply wp_ret. exact H.
    + unfold wp at 1. destruct (buffer s) as [|c b] eqn:Eb.
      * apply wp_bind. eapply wp_conseq; [apply (IH _ _ T)| |auto|auto]. cbn beta. intros taken s2 H. apply wp_ret. exact H.
      * destruct (text16_buffer _ _ _ T) as [x Hx]. rewrite Eb in Hx. cbn [app] in Hx. subst tx.
        pose proof (text16_pop _ _ _ _ _ T Eb) as T'. apply wp_bind. eapply wp_conseq; [apply (IH _ _ T')| |auto|auto]. cbn beta.
        intros taken s2 (tx' & E & T2). apply wp_ret. exists tx'. split; [|exact T2]. rewrite E. reflexivity.
Qed.
Lemma input_text16_start dbg e be i tx : input_text16 be e i tx -> text16 be tx (scanner_start dbg e i).
Proof.
  intros (Hc & Hy & Hl & l & Ht & Hm). apply utf16_text_encode in Ht. destruct Ht as [_ ->].
  constructor.
  - exact Hc.
  - eapply Forall_impl; [|exact Hy]. intros c. apply okc_yaml.
  - discriminate.
  - destruct Hm as [[-> Hm]|(-> & Hf & Hm)].
    + left. split; [destruct be; reflexivity|]. split; [exact Hl|]. exists tx. auto.
    + right. split; [reflexivity|]. split; [reflexivity|]. split; [exact Hl|]. split; [|destruct be; exact Hm].
      intros j [= <-] E r Hr. destruct Hf as [Hf|Hf]; [exact (Hf E)|]. rewrite Hr in Hf. exact Hf.
Qed.

(** ** Input in one piece is never read to its end *)
Definition octets (l : list byte) : Prop := Forall (fun b => b < 256) l.
Definition stuck (be : bool) (s : sst) : Prop := (exists l, src s = Some (Mk_source l []) /\ l <> [] /\ octets l) /\ enc s = e16 be /\ eof s = false.
Lemma decode_used n : forall l, (length l <= n)%nat -> Forall (fun u => u < 65536) l -> str_len16 (decode_utf16_prefix l) <= N.of_nat (length l).
Proof.
  induction n as [|n IH]; intros l Hl Hf; [destruct l; [cbn; lia|cbn in Hl; lia]|].
  destruct l as [|u r]; [cbn; lia|]. apply Forall_cons_iff in Hf. destruct Hf as [Hu Hf]. cbn [decode_utf16_prefix length] in *. destruct (is_surrogate u) eqn:E; cbn [negb].
  - destruct (is_low_surrogate u) eqn:E2; [cbn; lia|]. destruct r as [|v r]; [cbn; lia|]. destruct (is_low_surrogate v) eqn:E3; [|cbn; lia].
    apply Forall_cons_iff in Hf. destruct Hf as [_ Hf]. cbn [str_len16 fold_right length] in *. fold (str_len16 (decode_utf16_prefix r)). specialize (IH r ltac:(lia) Hf).
    unfold len_utf16. destruct (_ <? 65536); lia.
  - cbn [str_len16 fold_right]. fold (str_len16 (decode_utf16_prefix r)). specialize (IH r ltac:(lia) Hf).
    unfold len_utf16. destruct (N.ltb_spec u 65536); lia.
Qed.
Lemma units_octets be n : forall l, (length l <= n)%nat -> octets l -> Forall (fun u => u < 65536) (u16s be l).
Proof.
  induction n as [|n IH]; intros l Hl Ho; [destruct l; [constructor|cbn in Hl; lia]|].
  destruct l as [|a [|b r]]; [constructor..|]. apply Forall_cons_iff in Ho. destruct Ho as [Ha Ho]. apply Forall_cons_iff in Ho. destruct Ho as [Hb Ho].
  cbn [u16s]. constructor; [destruct be; lia|]. apply IH; [cbn [length] in Hl; lia|exact Ho].
Qed.
Lemma read_exact_piece n l r i' : read_exact n (Mk_source l []) = (inl r, i') -> l = r ++ skipn n l /\ length r = n /\ i' = Mk_source (skipn n l) [].
Proof.
  unfold read_exact. cbn [s_evs s_cur read_exact_go]. destruct (Nat.eqb_spec (length (firstn n l)) n) as [E|E]; [|discriminate]. intros [= <- <-].
  cbn [app]. rewrite firstn_skipn. auto.
Qed.
Lemma pair_not_prefix u v r c : is_surrogate u = true -> decode_utf16_pair u v = inl c -> decode_utf16_prefix (u :: v :: r) <> [].
Proof.
  intros Hs. unfold decode_utf16_pair. cbn [decode_utf16_prefix]. rewrite Hs. cbn [negb]. destruct (is_low_surrogate u); [discriminate|]. destruct (is_low_surrogate v); discriminate.
Qed.
Lemma read_more_stuck be s : stuck be s -> wp read_more (fun b s' => b = true /\ stuck be s') (fun _ _ => True) (fun _ => True) s.
Proof.
  intros ((l & Ei & Hne & Ho) & He & Hf). unfold read_more. apply wp_bind, wp_gets. rewrite He.
  replace (match e16 be with EncAny => panics PUnreachable | Utf8 => read_utf8_buffered | Utf16Le => read_utf16_buffered false | Utf16Be => read_utf16_buffered true end)
    with (read_utf16_buffered be) by (destruct be; reflexivity).
  destruct l as [|b l]; [contradiction|].
  unfold read_utf16_buffered. apply wp_bind. eapply wp_io; [exact Ei| |auto].
  unfold fill_buf_retry. cbn [s_cur]. intros l0 i1 [= <- <-]. cbv beta iota.
  pose proof (decode_used _ _ (le_n _) (units_octets be _ (b :: l) (le_n _) Ho)) as Hu. pose proof (u16s_len be _ (b :: l) (le_n _)) as Hl2.
  assert (Hn0 : forall u v r, u16s be (b :: l) = u :: v :: r -> forall c, is_surrogate u = true -> decode_utf16_pair u v = inl c -> decode_utf16_prefix (u16s be (b :: l)) <> []).
  { intros u v r E c Hs Hp. rewrite E. apply (pair_not_prefix u v r c Hs Hp). }
  assert (Hn1 : forall u r, u16s be (b :: l) = u :: r -> is_surrogate u = false -> decode_utf16_prefix (u16s be (b :: l)) <> []).
  { intros u r E Hs. rewrite E. cbn [decode_utf16_prefix]. rewrite Hs. discriminate. }
  revert Hu Hn0 Hn1. generalize (decode_utf16_prefix (u16s be (b :: l))). intros cs Hu Hn0 Hn1.
  eapply wp_seq; [apply push_chars_utf16_wp| |auto|auto]. cbn beta.
  intros u s' (-> & -> & HF). rewrite N.add_0_l. destruct (N.eqb_spec (str_len16 cs) 0) as [H0|H0]; cbn [negb].
  - assert (cs = []) as -> by (destruct cs as [|c cs]; [reflexivity|]; pose proof (str_len16_ge (c :: cs)); cbn [length] in *; lia).
    apply wp_bind, wp_get, wp_bind. destruct (_ && _); [apply wp_panics; exact Logic.I|]. apply wp_ret, wp_bind.
    unfold read_utf16_char_unbuffered. apply wp_bind. eapply wp_io; [reflexivity| |auto]. intros b1 i2 Hr.
    apply read_exact_piece in Hr. destruct Hr as (Hb1 & Hb2 & ->). destruct b1 as [|x1 [|x2 [|? ?]]]; try discriminate Hb2.
    destruct (is_surrogate _) eqn:Es.
    + apply wp_bind. eapply wp_io; [reflexivity| |auto]. intros b2 i3 Hr3.
      apply read_exact_piece in Hr3. destruct Hr3 as (Hb3 & Hb4 & ->). destruct b2 as [|x3 [|x4 [|? ?]]]; try discriminate Hb4. apply wp_bind, wp_gets.
      destruct (decode_utf16_pair _ _) as [c|v] eqn:Ep; [|apply wp_fail; exact Logic.I]. exfalso.
      rewrite Hb3 in Hb1. cbn [app] in Hb1. refine (Hn0 _ _ _ _ c Es Ep eq_refl). rewrite Hb1. destruct be; reflexivity.
    + exfalso. cbn [app] in Hb1. refine (Hn1 _ _ _ Es eq_refl). rewrite Hb1. destruct be; reflexivity.
  - apply wp_bind. unfold consume_m. eapply wp_io; [reflexivity| |auto].
    intros [] i2 [= <-]. apply wp_bind, wp_modify, wp_ret. split; [reflexivity|]. split; [|auto]. exists (skipn (N.to_nat (str_len16 cs)) (b :: l)).
    split; [reflexivity|]. split; [|apply (Forall_skipn _ _ Ho) || (rewrite <- (firstn_skipn (N.to_nat (str_len16 cs)) (b :: l)) in Ho; apply Forall_app in Ho; apply Ho)].
    clear - Hu Hl2 H0. intros H. apply (f_equal (@length byte)) in H. rewrite skipn_length in H. revert Hu Hl2 H. generalize (u16s be (b :: l)) (str_len16 cs) H0. intros us m Hm. cbn [length].
    unfold byte in *. lia.
Qed.
Lemma fill_stuck n be s : stuck be s ->
  wp (early <- fill_loop n ;; if early : bool then ret tt else off <- gets offset ;; if 9223372036854775807 <=? off then fail (EReader "input is too long" off (-1)) else ret tt)
    (fun _ s' => stuck be s') (fun _ _ => True) (fun _ => True) s.
Proof.
  intros H. eapply wp_seq with (Q1 := fun (_ : bool) s' => stuck be s') (E1 := fun _ _ => True) (P1 := fun _ => True);
    [|intros b s' Hs; destruct b; [apply wp_ret; exact Hs|]; apply wp_bind, wp_gets; destruct (_ <=? _); [apply wp_fail; exact Logic.I|apply wp_ret; exact Hs]|auto|auto].
  unfold fill_loop, loop. apply (wp_loopM (fun _ s' => stuck be s') ssize); [|exact H|rewrite meas_eq; lia].
  intros _ s1 H1. apply wp_bind, wp_get. destruct (Nat.ltb_spec (length (buffer s1)) n) as [Hl1|Hl1]; [|apply wp_ret; exact H1].
  pose proof H1 as ((l1 & Ei1 & _) & Ee1 & Ef1). rewrite Ef1. apply wp_bind.
  assert (Q1 : src s1 <> None) by congruence. assert (Q3 : enc s1 <> EncAny) by (rewrite Ee1; destruct be; discriminate).
  eapply wp_conseq; [apply wp_and; [exact (read_more_stuck be s1 H1)|exact (read_more_wp s1 Q1 Q3)]| |auto|auto].
  cbn beta. intros b s2 [[-> K] (_ & _ & M2)]. apply wp_ret. split; [exact K|]. exact (M2 eq_refl).
Qed.
(** The encoding is known, or will be found in the byte order mark. *)
Definition piece (be : bool) (s : sst) : Prop :=
  stuck be s \/ ((exists l, src s = Some (Mk_source (bom16 be ++ l) []) /\ l <> [] /\ octets l) /\ enc s = EncAny /\ eof s = false).
Lemma piece_src be s : piece be s -> src s <> None /\ eof s = false.
Proof. intros [((l & E & _) & _ & F)|((l & E & _) & _ & F)]; (split; [congruence|exact F]). Qed.
Lemma cache_piece n be s : piece be s -> wp (cache n) (fun _ s' => piece be s') (fun _ _ => True) (fun _ => True) s.
Proof.
  intros H. unfold cache. apply wp_bind, wp_get. destruct (Nat.leb_spec n (length (buffer s))) as [Hl|Hl]; [apply wp_ret; exact H|].
  unfold update_buffer. apply wp_bind, wp_get. destruct (piece_src _ _ H) as [Hs _]. destruct (src s) as [i|] eqn:Ei; [|congruence]. clear Hs.
  destruct (Nat.leb_spec n (length (buffer s))) as [Hl'|_]; [lia|].
  destruct H as [H|((l & El & Hne & Ho) & Ee & Ef)].
  - rewrite (proj1 (proj2 H)). replace (encoding_eqb (e16 be) EncAny) with false by (destruct be; reflexivity). apply wp_bind, wp_ret.
    eapply wp_conseq; [apply (fill_stuck n be s H)| |auto|auto]. cbn beta. intros _ s' K. left. exact K.
  - rewrite Ee. change (encoding_eqb EncAny EncAny) with true. cbv iota. apply wp_bind, wp_bind.
    eapply wp_conseq with (Q := fun o s' => o = Some (e16 be) /\ stuck be (set_enc (e16 be) s')) (E := fun _ _ => True) (P := fun _ => True);
      [| |auto|auto].
    2:{ cbn beta. intros o s1 [-> K]. apply wp_bind, wp_modify, wp_ret. eapply wp_conseq; [apply (fill_stuck n be _ K)| |auto|auto]. cbn beta. intros _ s' K'. left. exact K'. }
    rewrite Ei in El. injection El as ->. unfold determine_encoding. apply wp_bind. eapply wp_io; [exact Ei| |auto]. unfold fill_buf. cbn [s_cur].
    assert (Hb : exists b r, bom16 be ++ l = b :: r /\ (b =? 239) = false /\ ((b =? 255) || (b =? 254)) = true) by (destruct be; cbn [bom16 app]; eexists _, _; (split; [reflexivity|]); split; reflexivity).
    destruct Hb as (b & r & Eb & B1 & B2). rewrite Eb. intros l0 i1 [= <- <-]. rewrite B1, B2. apply wp_bind. eapply wp_io; [reflexivity| |auto]. rewrite <- Eb.
    intros bm i2 Hr. apply read_exact_piece in Hr. destruct Hr as (Hr1 & Hr2 & ->).
    assert (bm = bom16 be /\ skipn 2 (bom16 be ++ l) = l) as [-> ->].
    { destruct bm as [|x1 [|x2 [|? ?]]]; try discriminate Hr2. destruct be; cbn [bom16 app skipn] in *; injection Hr1 as <- <-; auto. }
    assert (K : stuck be (set_enc (e16 be) (set_src (Some (Mk_source l [])) (set_src (Some (Mk_source (bom16 be ++ l) [])) s)))).
    { split; [exists l; auto|]. split; [reflexivity|exact Ef]. }
    destruct be; cbn [bytes_eqb str_eqb bom16 N.eqb Pos.eqb andb]; apply wp_ret; (split; [reflexivity|exact K]).
Qed.
Lemma do_ops_piece be ops : forall s, piece be s ->
  wp (do_ops ops) (fun taken s' => piece be s' /\ (length taken + vol s' <= vol s)%nat) (fun _ _ => True) (fun _ => True) s.
Proof.
  induction ops as [|o ops IH]; intros s H; cbn [do_ops].
  - apply wp_ret. split; [exact H|]. apply Nat.le_refl.
  - apply wp_bind. destruct o as [n|]; cbn [do_op].
    + destruct (piece_src _ _ H) as [Q1 _].
      eapply wp_seq; [apply wp_and; [exact (cache_piece n be s H)|exact (cache_wp n s Q1)]| |auto|auto]. cbn beta. intros _ s' [H' (_ & M & _)]. apply wp_ret, wp_bind.
      eapply wp_conseq; [apply (IH _ H')| |auto|auto]. cbn beta. intros taken s2 [K1 K2]. apply wp_ret. split; [exact K1|]. pose proof (rdm_vol _ _ M). cbn [app]. lia.
    + unfold wp at 1. destruct (buffer s) as [|c b] eqn:Eb.
      * apply wp_bind. eapply wp_conseq; [apply (IH _ H)| |auto|auto]. cbn beta. intros taken s2 K. apply wp_ret. exact K.
      * assert (H' : piece be (set_buffer b s)) by exact H.
        assert (V : S (vol (set_buffer b s)) = vol s) by (unfold vol; rewrite Eb; reflexivity).
        apply wp_bind. eapply wp_conseq; [apply (IH _ H')| |auto|auto]. cbn beta. intros taken s2 [K1 K2]. apply wp_ret. split; [exact K1|]. cbn [app length]. lia.
Qed.
