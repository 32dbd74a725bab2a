(** Located.v -- C57: where the errors of the reader lie (UTF-8 input). *)
From Coq Require Import Lia ZifyBool ZifyNat ZifyN Bool.
From Verif Require Import Base Utf Chars State Reader Scanner Parser Document Wp ReaderFacts Utf8Facts Spec_Tokens Spec_Scanner ReadFacts.
Open Scope N_scope.

(** The bytes [l] of the input, from offset [base] on: the error is about the first byte that does not
    belong to a character allowed by YAML. *)
Definition control_msg : string := "control characters are not allowed".
Definition invalid_msg : string := "invalid UTF-8".
Definition culprit (p : string) (v : Z) (rest : list byte) : Prop :=
  p = control_msg /\ (exists c r, sc_char c /\ rest = encode_utf8_char c ++ r /\ ~ okc c /\ v = Z.of_N c) \/
  p = invalid_msg /\ rest <> [] /\ not_char rest /\ v = Z.of_N (hd 0 rest).
Definition located (base : N) (l : list byte) (e : error) : Prop :=
  match e with
  | EReader p o v => exists x rest, l = encode_utf8 x ++ rest /\ Forall okc x /\ o = base + str_len x /\ culprit p v rest
  | _ => True
  end.

Lemma push_chars_utf8_at cs : forall s,
  wp (push_chars_utf8 cs) (fun _ s' => s' = pushed cs (offset s + str_len cs) s /\ Forall okc cs)
     (fun e s' => enc s' = enc s /\ exists x c y, cs = x ++ c :: y /\ Forall okc x /\ ~ okc c /\ e = EReader "control characters are not allowed" (offset s + str_len x) (Z.of_N c)) (fun _ => False) s.
Proof.
  induction cs as [|c cs IH]; intros s; cbn [push_chars_utf8].
  - cbn [str_len]. rewrite N.add_0_r, pushed_nil. apply wp_ret; auto.
  - repeat wp_step. unfold wp, push_char. destruct (allowed_char c) eqn:Ha.
    + apply wp_bind, wp_modify. eapply wp_conseq; [apply IH| | |auto]; cbn beta.
      * intros _ s' [-> HF]. split; [|constructor; assumption].
        cbn [str_len]. unfold pushed, set_offset, set_buffer. cbn. rewrite <- app_assoc.
        f_equal. lia.
      * intros e s' (He & x & c' & y & -> & Hx & Hc & ->). split; [exact He|]. exists (c :: x), c', y. split; [reflexivity|]. split; [constructor; assumption|]. split; [exact Hc|].
        cbn [str_len offset set_offset set_buffer]. f_equal. lia.
    + split; [reflexivity|]. exists [], c, cs. split; [reflexivity|]. split; [constructor|]. split; [unfold okc; rewrite Ha; discriminate|]. cbn [str_len]. rewrite N.add_0_r. reflexivity.
Qed.


Lemma read_utf8_at s : src s <> None ->
  wp read_utf8_buffered
     (fun b s' => exists x, got x s s')
     (fun e s' => enc s' = enc s /\ located (offset s) (sb s) e) (fun _ => False) s.
Proof.
  intros Hs. destruct (src s) as [i|] eqn:Ei; [|congruence]. clear Hs.
  assert (Hsb : sb s = all_bytes i) by (unfold sb; rewrite Ei; reflexivity).
  assert (Hcl : cleans s -> clean i) by (unfold cleans; rewrite Ei; auto).
  unfold read_utf8_buffered. apply wp_bind. eapply wp_io; [exact Ei| |].
  2:{ intros e i' Hf. split; [reflexivity|exact Logic.I]. }
  intros l i1 Hf. apply fill_buf_retry_bytes in Hf. destruct Hf as (Hcur & Hab & Hc1).
  set (s1 := set_src (Some i1) s).
  destruct l as [|b l].
  { apply wp_ret. exists [].
    - assert (Hsb1 : sb s = sb s1) by (rewrite Hsb; symmetry; exact Hab).
      constructor; auto; cbn; rewrite ?app_nil_r; try reflexivity; try lia; try congruence; try exact Hsb1.
      intros Hc. unfold cleans. cbn. apply Hc1, Hcl, Hc. }
  destruct (from_utf8 (b :: l)) as [cs e] eqn:Hu. pose proof (from_utf8_sound _ _ _ Hu) as [Hdec Hsc].
  pose proof (from_utf8_rest _ _ _ Hu) as Hrest.
  assert (Hbytes : all_bytes i = encode_utf8 cs ++ urest e ++ evs_data (s_evs i1)).
  { rewrite <- Hab, all_bytes_eq, Hcur, Hdec, <- app_assoc. reflexivity. }
  assert (Hpush : forall er (s' : sst), (enc s' = enc s1 /\ exists x c y, cs = x ++ c :: y /\ Forall okc x /\ ~ okc c /\ er = EReader "control characters are not allowed" (offset s1 + str_len x) (Z.of_N c)) ->
     enc s' = enc s /\ located (offset s) (sb s) er).
  { intros er s' (He & x & c & y & -> & Hx & Hc & ->). split; [exact He|]. rewrite Hsb, Hbytes. exists x, (encode_utf8_char c ++ encode_utf8 y ++ urest e ++ evs_data (s_evs i1)).
    split; [rewrite encode_utf8_app, encode_utf8_cons, <- !app_assoc; reflexivity|]. split; [exact Hx|]. split; [reflexivity|]. left. split; [reflexivity|].
    exists c, (encode_utf8 y ++ urest e ++ evs_data (s_evs i1)). split; [|auto]. apply Forall_app in Hsc. destruct Hsc as [_ Hsc]. apply Forall_cons_iff in Hsc. apply Hsc. }
  assert (Hcons : forall n, (n <= length (b :: l))%nat -> Forall okc cs -> encode_utf8 cs = firstn n (b :: l) ->
     got cs s (set_src (Some (consume n i1)) (pushed cs (offset s1 + str_len cs) s1))).
  { intros n Hn HF He. destruct (consume_bytes n i1) as [C1 C2]; [rewrite Hcur; exact Hn|].
    assert (Hx : sb s = encode_utf8 cs ++ all_bytes (consume n i1)) by (rewrite Hsb, <- Hab, C1, Hcur, He; reflexivity).
    constructor; try exact Hx; cbn; auto; try congruence.
    intros Hc. unfold cleans. cbn. apply C2, Hc1, Hcl, Hc. }
  destruct e as [|rest|rest]; cbn [urest] in *.
  - eapply wp_seq; [apply push_chars_utf8_at| |intros er s'; apply (Hpush er s')|contradiction]. cbn beta.
    intros _ s' [-> HF]. apply wp_bind. unfold consume_m. eapply wp_io; [reflexivity| |discriminate].
    intros [] i2 [= <-]. apply wp_ret. exists cs. apply Hcons; [apply Nat.le_refl|exact HF|].
    rewrite app_nil_r in Hdec. rewrite <- Hdec. symmetry. apply (firstn_all (b :: l)).
  - destruct (Nat.eqb_spec (length (b :: l) - length rest) 0) as [H0|H0].
    + assert (cs = []) as ->.
      { pose proof (f_equal (@length byte) Hdec) as Hl. rewrite app_length in Hl.
        destruct cs as [|c cs]; [reflexivity|]. rewrite encode_utf8_cons, app_length in Hl.
        pose proof (encode_char_len c) as Hk. pose proof (len_utf8_pos c). unfold byte in *. lia. }
      cbn [app encode_utf8 flat_map] in *. subst rest.
      cbn [push_chars_utf8]. apply wp_bind, wp_ret. apply wp_bind.
      destruct (from_utf8_len _ _ _ Hu) as (_ & _ & Hinc). destruct (Hinc _ eq_refl eq_refl) as (b' & t & [= <- <-] & Hlead).
      pose proof (width_lead b Hlead) as Hw.
      unfold read_utf8_char_unbuffered. apply wp_bind. eapply wp_io; [reflexivity| |].
      2:{ intros e' i2 Hr. split; [reflexivity|exact Logic.I]. }
      intros buf i2 Hr. destruct (read_exact_bytes _ _ _ _ Hr) as (Hb2 & Hlen2 & Hc2). rewrite Hab in Hb2.
      assert (Hb0 : exists t2, buf = b :: t2).
      { destruct buf as [|b2 t2]; [cbn in Hlen2; lia|]. rewrite Hb2 in Hbytes. cbn [app] in Hbytes. injection Hbytes as -> _. eauto. }
      destruct Hb0 as (t2 & ->).
      assert (Hbadbuf : forall cs' e', from_utf8 (b :: t2) = (cs', e') -> e' <> UEnd -> located (offset s) (sb s) (EReader "invalid UTF-8" (offset s) (Z.of_N b))).
      { intros cs' e' Hu' He'. rewrite Hsb. exists [], (all_bytes i). split; [reflexivity|]. split; [constructor|]. split; [cbn [str_len]; lia|]. right. split; [reflexivity|].
        split; [rewrite Hb2; discriminate|]. split; [|rewrite Hb2; reflexivity].
        - intros c r Hsc' E. destruct (encode_utf8_char c) as [|b3 t3] eqn:Ec; [exact (encode_char_ne c Ec)|].
          destruct (char_head c b3 t3 Hsc' Ec) as [Hw2 _]. rewrite Hb2 in E. cbn [app] in E. injection E as -> E.
          assert (t2 = t3) as ->.
          { assert (Hk : firstn (length t2) (t2 ++ all_bytes i2) = firstn (length t2) (t3 ++ r)) by (rewrite E; reflexivity).
            rewrite firstn_app, firstn_all, Nat.sub_diag, app_nil_r in Hk. rewrite Hk. cbn [length] in *.
            replace (length t2) with (length t3) by (unfold byte in *; lia). rewrite firstn_app, firstn_all, Nat.sub_diag, app_nil_r. reflexivity. }
          pose proof (from_utf8_char c [] Hsc') as F. rewrite app_nil_r, Ec, Hu' in F. cbn in F. congruence. }
      destruct (from_utf8 (b :: t2)) as [cs' e'] eqn:Hu'.
      destruct e'; [|apply wp_bind, wp_gets, wp_fail; split; [reflexivity|eapply Hbadbuf; [reflexivity|discriminate]] ..].
      destruct (from_utf8_sound _ _ _ Hu') as [Hdec' Hsc']. cbn [urest] in Hdec'. rewrite app_nil_r in Hdec'.
      destruct cs' as [|c cs']; [discriminate|].
      assert (cs' = []) as ->.
      { rewrite encode_utf8_cons in Hdec'. apply Forall_cons_iff in Hsc'. destruct Hsc' as [Hsc' _].
        destruct (encode_utf8_char c) as [|b3 t3] eqn:Ec; [destruct (encode_char_ne c Ec)|]. destruct (char_head c b3 t3 Hsc' Ec) as [Hw2 _].
        pose proof (f_equal (@length byte) Hdec') as Hl. cbn [app] in Hdec'. injection Hdec' as <- _. rewrite Hlen2 in Hl. rewrite app_length in Hl.
        apply encode_nil. apply length_zero_iff_nil. unfold byte in *. lia. }
      apply Forall_cons_iff in Hsc'. destruct Hsc' as [Hsc' _].
      assert (Ebuf : b :: t2 = encode_utf8_char c) by (rewrite Hdec'; cbn; apply app_nil_r).
      apply wp_bind, wp_gets, wp_bind. unfold wp, push_char. destruct (allowed_char c) eqn:Ha.
      * apply wp_modify, wp_ret. exists [c]. constructor; cbn; auto; try congruence.
        -- rewrite Hsb, Hb2, Ebuf, app_nil_r. reflexivity.
        -- rewrite <- Hlen2, Ebuf, N.add_0_r. rewrite encode_char_len. reflexivity.
        -- intros Hc. unfold cleans. cbn. apply Hc2, Hc1, Hcl, Hc.
      * split; [reflexivity|]. rewrite Hsb, Hb2, Ebuf. exists [], (encode_utf8_char c ++ all_bytes i2).
        split; [reflexivity|]. split; [constructor|]. split; [cbn [str_len]; rewrite N.add_0_r; reflexivity|]. left. split; [reflexivity|]. exists c, (all_bytes i2). split; [exact Hsc'|]. split; [reflexivity|]. split; [|reflexivity]. unfold okc. rewrite Ha. discriminate.
    + eapply wp_seq; [apply push_chars_utf8_at| |intros er s'; apply (Hpush er s')|contradiction]. cbn beta.
      intros _ s' [-> HF]. apply wp_bind. unfold consume_m. eapply wp_io; [reflexivity| |discriminate].
      intros [] i2 [= <-]. apply wp_ret. exists cs. change (got cs s (set_src (Some (consume (length (b :: l) - length rest) i1)) (pushed cs (offset s1 + str_len cs) s1))).
      apply Hcons; [apply Nat.le_sub_l|exact HF|].
      rewrite Hdec at 2. pose proof (f_equal (@length byte) Hdec) as Hl. rewrite app_length in Hl.
      replace (length (b :: l) - length rest)%nat with (length (encode_utf8 cs)) by (unfold byte in *; lia).
      rewrite firstn_app, firstn_all, Nat.sub_diag, app_nil_r. reflexivity.
  - eapply wp_seq; [apply push_chars_utf8_at| |intros er s'; apply (Hpush er s')|contradiction]. cbn beta.
    intros _ s' [-> HF]. apply wp_bind, wp_gets, wp_fail. split; [reflexivity|]. rewrite Hsb, Hbytes.
    eexists cs, _. split; [reflexivity|]. split; [exact HF|]. split; [reflexivity|]. right. pose proof (invalid_ext _ (evs_data (s_evs i1)) Hrest) as Hx.
    split; [reflexivity|]. destruct rest; [discriminate Hrest|]. split; [discriminate|]. split; [eapply stuck_not_char, Hx|reflexivity].
Qed.
