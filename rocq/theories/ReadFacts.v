(** ReadFacts.v -- what the reader decodes, byte by byte. *)
From Coq Require Import ZifyBool ZifyNat ZifyN.
From Verif Require Import Base Utf Chars State Reader Wp ReaderFacts Utf8Facts Spec_Tokens Spec_Scanner.

Definition sc_char (c : char) : Prop := is_scalar c = true.
Lemma okc_scalar c : okc c -> sc_char c.
Proof. unfold okc, sc_char, allowed_char, is_scalar, in_range. lia. Qed.
Lemma okc_yaml c : okc c <-> yaml_char c.
Proof. unfold okc, yaml_char, allowed_char, in_range. lia. Qed.
Lemma okcs_scalar l : Forall okc l -> Forall sc_char l.
Proof. intros H. eapply Forall_impl; [apply okc_scalar|exact H]. Qed.

(** ** Streams *)
(** A reader without I/O errors; a chunk is empty only at the end of the input. *)
Definition clean_ev (e : src_ev) : Prop := match e with SData l => l <> [] | SIntr => True | SFail _ => False end.
Definition clean (i : source) : Prop := Forall clean_ev (s_evs i).
Definition evs_data (l : list src_ev) : list byte := flat_map (fun e => match e with SData l => l | _ => [] end) l.
Lemma all_bytes_eq i : all_bytes i = s_cur i ++ evs_data (s_evs i).
Proof. reflexivity. Qed.

Lemma fill_buf_bytes i l i' : fill_buf i = (inl l, i') ->
  s_cur i' = l /\ all_bytes i' = all_bytes i /\ (clean i -> clean i' /\ (l = [] -> all_bytes i = [])).
Proof.
  unfold fill_buf. destruct i as [cur evs]. rewrite !all_bytes_eq. unfold clean. cbn [s_cur s_evs].
  destruct cur as [|b cur].
  - destruct evs as [|[d| |k] evs]; intros [= <- <-]; cbn [s_cur s_evs]; (split; [reflexivity|split; [reflexivity|]]); intros H; auto.
    apply Forall_cons_iff in H. destruct H as [H1 H2]. split; [exact H2|]. intros ->. destruct (H1 eq_refl).
  - intros [= <- <-]. split; [reflexivity|]. split; [reflexivity|]. intros H. split; [exact H|discriminate].
Qed.
Lemma fill_buf_retry_bytes i l i' : fill_buf_retry i = (inl l, i') ->
  s_cur i' = l /\ all_bytes i' = all_bytes i /\ (clean i -> clean i' /\ (l = [] -> all_bytes i = [])).
Proof.
  unfold fill_buf_retry. destruct i as [cur evs]. rewrite !all_bytes_eq. unfold clean. cbn [s_cur s_evs].
  destruct cur as [|b cur].
  - cbn [app]. revert l i'. induction evs as [|[d| |k] evs IH]; cbn [fill_buf_retry_go]; intros l i'.
    + intros [= <- <-]. auto.
    + intros [= <- <-]. split; [reflexivity|]. split; [reflexivity|]. intros H. apply Forall_cons_iff in H. destruct H as [H1 H2].
      split; [exact H2|]. intros ->. destruct (H1 eq_refl).
    + intros H. destruct (IH _ _ H) as (H1 & H2 & H3). split; [exact H1|]. split; [exact H2|].
      intros HF. apply Forall_cons_iff in HF. destruct HF as [_ HF]. exact (H3 HF).
    + discriminate.
  - intros [= <- <-]. split; [reflexivity|]. split; [reflexivity|]. intros H. split; [exact H|discriminate].
Qed.
Lemma fill_buf_retry_err i e i' : fill_buf_retry i = (inr e, i') -> ~ clean i.
Proof.
  unfold fill_buf_retry, clean. destruct i as [cur evs]. cbn [s_cur s_evs]. destruct cur; [|discriminate].
  induction evs as [|[d| |k] evs IH]; cbn [fill_buf_retry_go]; try discriminate.
  - intros H HF. apply Forall_cons_iff in HF. apply (IH H), HF.
  - intros _ HF. apply Forall_cons_iff in HF. apply HF.
Qed.
Lemma read_exact_go_bytes evs : forall n acc cur l i', read_exact_go evs n acc cur = (inl l, i') ->
  acc ++ cur ++ evs_data evs = l ++ all_bytes i' /\ (Forall clean_ev evs -> clean i').
Proof.
  induction evs as [|ev evs IH]; intros n acc cur l i'; cbn [read_exact_go].
  - destruct (Nat.eqb _ n); [|discriminate]. intros [= <- <-]. rewrite all_bytes_eq. cbn [s_cur s_evs evs_data flat_map].
    rewrite !app_nil_r, <- app_assoc, firstn_skipn. auto.
  - destruct (Nat.eqb _ n) eqn:En.
    + intros [= <- <-]. rewrite all_bytes_eq. cbn [s_cur s_evs]. split; [|auto].
      rewrite <- app_assoc. f_equal. rewrite app_assoc, firstn_skipn. reflexivity.
    + assert (Hf : firstn n cur = cur).
      { apply Nat.eqb_neq in En. rewrite firstn_length in En. apply firstn_all2. lia. }
      destruct ev as [[|b d]| |k]; try discriminate; intros H; apply IH in H; destruct H as [H1 H2]; rewrite Hf in H1.
      * cbn [evs_data flat_map]. split; [rewrite <- H1, <- !app_assoc; reflexivity|]. intros HF. apply Forall_cons_iff in HF. apply H2, HF.
      * cbn [evs_data flat_map app]. split; [rewrite <- H1, <- !app_assoc; reflexivity|]. intros HF. apply Forall_cons_iff in HF. apply H2, HF.
Qed.
Lemma read_exact_bytes n i l i' : read_exact n i = (inl l, i') ->
  all_bytes i = l ++ all_bytes i' /\ length l = n /\ (clean i -> clean i').
Proof.
  intros H. pose proof (read_exact_ok _ _ _ _ H) as (Hl & _). unfold read_exact in H.
  apply read_exact_go_bytes in H. destruct H as [H1 H2]. auto.
Qed.
Lemma read_exact_go_err evs : forall n acc cur e i', read_exact_go evs n acc cur = (inr e, i') -> Forall clean_ev evs ->
  e = UnexpectedEof /\ (length (cur ++ evs_data evs) < n)%nat.
Proof.
  induction evs as [|ev evs IH]; intros n acc cur e i'; cbn [read_exact_go].
  - destruct (Nat.eqb _ n) eqn:En; [discriminate|]. intros [= <- <-] _. cbn. rewrite app_nil_r.
    apply Nat.eqb_neq in En. rewrite firstn_length in En. split; [reflexivity|lia].
  - destruct (Nat.eqb _ n) eqn:En; [discriminate|].
    assert (Hf : firstn n cur = cur /\ (length cur < n)%nat).
    { apply Nat.eqb_neq in En. rewrite firstn_length in En. split; [apply firstn_all2; lia|lia]. }
    destruct Hf as [Hf Hl]. rewrite Hf.
    destruct ev as [[|b d]| |k]; intros H HF; apply Forall_cons_iff in HF; destruct HF as [H1 H2].
    + destruct (H1 eq_refl).
    + apply (IH _ _ _ _ _ H) in H2. destruct H2 as [H2 H3]. split; [exact H2|]. cbn [evs_data flat_map]. rewrite !app_length in *. unfold evs_data in *. lia.
    + apply (IH _ _ _ _ _ H) in H2. destruct H2 as [H2 H3]. split; [exact H2|]. cbn [evs_data flat_map]. rewrite !app_length in *. cbn [length app] in *. unfold evs_data in *. lia.
    + contradiction.
Qed.
Lemma read_exact_err n i e i' : read_exact n i = (inr e, i') -> clean i -> e = UnexpectedEof /\ (length (all_bytes i) < n)%nat.
Proof. intros H Hc. exact (read_exact_go_err _ _ _ _ _ _ H Hc). Qed.
Lemma consume_bytes n i : (n <= length (s_cur i))%nat ->
  all_bytes i = firstn n (s_cur i) ++ all_bytes (consume n i) /\ (clean i -> clean (consume n i)).
Proof.
  intros H. rewrite !all_bytes_eq. unfold consume. cbn [s_cur s_evs]. split; [|auto]. rewrite app_assoc, firstn_skipn. reflexivity.
Qed.

(** ** Byte classes *)
Lemma width_tab : forall b, b < 256 -> utf8_char_width b =
  if b <? 128 then 1%nat else if b <? 192 then 0%nat else if b <? 224 then 2%nat else if b <? 240 then 3%nat else if b <? 248 then 4%nat else 0%nat.
Proof.
  assert (H : forallb (fun n => let b := N.of_nat n in Nat.eqb (utf8_char_width b)
     (if b <? 128 then 1%nat else if b <? 192 then 0%nat else if b <? 224 then 2%nat else if b <? 240 then 3%nat else if b <? 248 then 4%nat else 0%nat)) (seq 0 256) = true) by (vm_compute; reflexivity).
  intros b Hb. rewrite forallb_forall in H. specialize (H (N.to_nat b)). cbn zeta in H. rewrite N2Nat.id in H.
  apply Nat.eqb_eq. apply H. apply in_seq. lia.
Qed.
Ltac Zify.zify_post_hook ::= Z.div_mod_to_equations.
Lemma char_head c b r : sc_char c -> encode_utf8_char c = b :: r -> utf8_char_width b = length (b :: r) /\ b < 256.
Proof.
  unfold sc_char, is_scalar, encode_utf8_char. intros H.
  destruct (N.ltb_spec c 128); [|destruct (N.ltb_spec c 2048); [|destruct (N.ltb_spec c 65536)]]; intros E; rewrite <- E;
   apply (f_equal (hd 0)) in E; cbn [hd] in E; subst b; cbn [length]; (split; [|lia]); rewrite width_tab by lia.
  - replace (c <? 128) with true by lia. reflexivity.
  - replace (192 + c / 64 <? 128) with false by lia. replace (192 + c / 64 <? 192) with false by lia. replace (192 + c / 64 <? 224) with true by lia. reflexivity.
  - replace (224 + c / 4096 <? 128) with false by lia. replace (224 + c / 4096 <? 192) with false by lia. replace (224 + c / 4096 <? 224) with false by lia.
    replace (224 + c / 4096 <? 240) with true by lia. reflexivity.
  - replace (240 + c / 262144 <? 128) with false by lia. replace (240 + c / 262144 <? 192) with false by lia. replace (240 + c / 262144 <? 224) with false by lia.
    replace (240 + c / 262144 <? 240) with false by lia. replace (240 + c / 262144 <? 248) with true by lia. reflexivity.
Qed.
Ltac Zify.zify_post_hook ::= idtac.

(** ** Bytes that do not start with an allowed character *)
Definition bad (l : list byte) : Prop := l <> [] /\ forall c r, sc_char c -> l = encode_utf8_char c ++ r -> ~ okc c.
(** Bytes that are an allowed text followed by something else. *)
Definition spoiled (l : list byte) : Prop := exists x rest, l = encode_utf8 x ++ rest /\ Forall okc x /\ bad rest.
Lemma char_prefix c c' r r' : sc_char c -> sc_char c' -> encode_utf8_char c ++ r = encode_utf8_char c' ++ r' -> c = c'.
Proof.
  intros H H' E. pose proof (from_utf8_char c r H) as F. rewrite E, from_utf8_char in F by exact H'.
  destruct (from_utf8 r), (from_utf8 r'). congruence.
Qed.
Lemma bad_char c r : sc_char c -> ~ okc c -> bad (encode_utf8_char c ++ r).
Proof.
  intros H Hn. split. { intros E. apply app_eq_nil in E. destruct E as [E _]. exact (encode_char_ne c E). }
  intros c' r' H' E. apply char_prefix in E; try assumption. subst c'. exact Hn.
Qed.
Lemma bad_not_char l : l <> [] -> not_char l -> bad l.
Proof. intros H1 H2. split; [exact H1|]. intros c r Hc E. destruct (H2 c r Hc E). Qed.
Lemma encode_not_spoiled tx : Forall okc tx -> ~ spoiled (encode_utf8 tx).
Proof.
  intros H (x & rest & E & Hx & Hr & Hb). apply encode_inj_prefix in E; [|apply okcs_scalar; assumption..].
  destruct E as (d & -> & ->). destruct d as [|c d]; [exact (Hr eq_refl)|]. apply Forall_app in H. destruct H as [_ H].
  apply Forall_cons_iff in H. destruct H as [H _]. apply (Hb c (encode_utf8 d)); [apply okc_scalar, H|reflexivity|exact H].
Qed.
Lemma spoiled_app x l : Forall okc x -> spoiled l -> spoiled (encode_utf8 x ++ l).
Proof. intros Hx (y & r & -> & Hy & Hb). exists (x ++ y), r. rewrite encode_utf8_app, app_assoc. split; [reflexivity|]. split; [apply Forall_app; auto|exact Hb]. Qed.
Lemma invalid_ext r m : from_utf8 r = ([], UInvalid r) -> from_utf8 (r ++ m) = ([], UInvalid (r ++ m)).
Proof.
  destruct r as [|b1 r1]; [discriminate|]. cbn [from_utf8 app].
  destruct (b1 <? 128); [destruct (from_utf8 r1); discriminate|].
  destruct ((194 <=? b1) && (b1 <=? 223)).
  { destruct r1 as [|b2 r2]; [discriminate|]. cbn [app]. destruct (cont b2); [destruct (from_utf8 r2); discriminate|reflexivity]. }
  destruct ((224 <=? b1) && (b1 <=? 239)).
  { destruct r1 as [|b2 r2]; [discriminate|]. cbn [app]. destruct (second3 b1 b2); [|reflexivity].
    destruct r2 as [|b3 r3]; [discriminate|]. cbn [app]. destruct (cont b3); [destruct (from_utf8 r3); discriminate|reflexivity]. }
  destruct ((240 <=? b1) && (b1 <=? 244)); [|reflexivity].
  destruct r1 as [|b2 r2]; [discriminate|]. cbn [app]. destruct (second4 b1 b2); [|reflexivity].
  destruct r2 as [|b3 r3]; [discriminate|]. cbn [app]. destruct (cont b3); [|reflexivity].
  destruct r3 as [|b4 r4]; [discriminate|]. cbn [app]. destruct (cont b4); [destruct (from_utf8 r4); discriminate|reflexivity].
Qed.

(** ** Pushing characters *)
Lemma push_chars_utf8_exact cs : forall s,
  wp (push_chars_utf8 cs) (fun _ s' => s' = pushed cs (offset s + str_len cs) s /\ Forall okc cs)
     (fun e s' => (exists p o v, e = EReader p o v) /\ exists x c y, cs = x ++ c :: y /\ Forall okc x /\ ~ okc c) (fun _ => False) s.
Proof.
  induction cs as [|c cs IH]; intros s; cbn [push_chars_utf8].
  - cbn [str_len]. rewrite N.add_0_r, pushed_nil. apply wp_ret; auto.
  - repeat wp_step. unfold wp, push_char. destruct (allowed_char c) eqn:Ha.
    + apply wp_bind, wp_modify. eapply wp_conseq; [apply IH| | |auto]; cbn beta.
      * intros _ s' [-> HF]. split; [|constructor; assumption].
        cbn [str_len]. unfold pushed, set_offset, set_buffer. cbn. rewrite <- app_assoc.
        f_equal. lia.
      * intros e s' (He & x & c' & y & -> & Hx & Hc). split; [exact He|]. exists (c :: x), c', y. split; [reflexivity|]. split; [constructor; assumption|exact Hc].
    + split; [eauto|]. exists [], c, cs. split; [reflexivity|]. split; [constructor|]. unfold okc. rewrite Ha. discriminate.
Qed.

(** ** One read *)
Definition sb (s : sst) : list byte := match src s with Some i => all_bytes i | None => [] end.
Definition cleans (s : sst) : Prop := match src s with Some i => clean i | None => False end.
Definition rerr (e : error) : Prop := (exists p o v, e = EReader p o v) \/ e = EIo UnexpectedEof.
(** [got x s s']: exactly the characters [x] were decoded and put in the buffer. *)
Record got (x : str) (s s' : sst) : Prop := {
  g_buf : buffer s' = buffer s ++ x;
  g_ok : Forall okc x;
  g_bytes : sb s = encode_utf8 x ++ sb s';
  g_off : offset s' = offset s + str_len x;
  g_clean : cleans s -> cleans s';
  g_eof : eof s' = eof s;
  g_enc : enc s' = enc s;
  g_src : src s <> None -> src s' <> None }.
Lemma got_refl s : got [] s s.
Proof. constructor; auto. - rewrite app_nil_r. reflexivity. - cbn. lia. Qed.
Lemma got_trans x y a b c : got x a b -> got y b c -> got (x ++ y) a c.
Proof.
  intros [] []. constructor; auto; try congruence.
  - rewrite g_buf1, g_buf0, app_assoc. reflexivity.
  - apply Forall_app; auto.
  - rewrite g_bytes0, g_bytes1, encode_utf8_app, app_assoc. reflexivity.
  - rewrite g_off1, g_off0, str_len_app. lia.
Qed.

Lemma read_utf8_exact s : src s <> None ->
  wp read_utf8_buffered
     (fun b s' => exists x, got x s s' /\ (cleans s -> b = false -> sb s = []))
     (fun e s' => cleans s -> rerr e /\ spoiled (sb s)) (fun _ => False) s.
Proof.
  intros Hs. destruct (src s) as [i|] eqn:Ei; [|congruence]. clear Hs.
  assert (Hsb : sb s = all_bytes i) by (unfold sb; rewrite Ei; reflexivity).
  assert (Hcl : cleans s -> clean i) by (unfold cleans; rewrite Ei; auto).
  unfold read_utf8_buffered. apply wp_bind. eapply wp_io; [exact Ei| |].
  2:{ intros e i' Hf Hc. destruct (fill_buf_retry_err _ _ _ Hf (Hcl Hc)). }
  intros l i1 Hf. apply fill_buf_retry_bytes in Hf. destruct Hf as (Hcur & Hab & Hc1).
  set (s1 := set_src (Some i1) s).
  destruct l as [|b l].
  { apply wp_ret. exists []. split.
    - assert (Hsb1 : sb s = sb s1) by (rewrite Hsb; symmetry; exact Hab).
      constructor; auto; cbn; rewrite ?app_nil_r; try reflexivity; try lia; try congruence; try exact Hsb1.
      intros Hc. unfold cleans. cbn. apply Hc1, Hcl, Hc.
    - intros Hc _. rewrite Hsb. apply Hc1; [apply Hcl, Hc|reflexivity]. }
  destruct (from_utf8 (b :: l)) as [cs e] eqn:Hu. pose proof (from_utf8_sound _ _ _ Hu) as [Hdec Hsc].
  pose proof (from_utf8_rest _ _ _ Hu) as Hrest.
  assert (Hbytes : all_bytes i = encode_utf8 cs ++ urest e ++ evs_data (s_evs i1)).
  { rewrite <- Hab, all_bytes_eq, Hcur, Hdec, <- app_assoc. reflexivity. }
  assert (Hpush : forall er (s' : sst), ((exists p o v, er = EReader p o v) /\ exists x c y, cs = x ++ c :: y /\ Forall okc x /\ ~ okc c) ->
     cleans s -> rerr er /\ spoiled (sb s)).
  { intros er s' (He & x & c & y & -> & Hx & Hc) _. split; [left; exact He|]. rewrite Hsb, Hbytes. exists x, (encode_utf8_char c ++ encode_utf8 y ++ urest e ++ evs_data (s_evs i1)).
    split; [rewrite encode_utf8_app, encode_utf8_cons, <- !app_assoc; reflexivity|]. split; [exact Hx|]. apply bad_char; [|exact Hc].
    apply Forall_app in Hsc. destruct Hsc as [_ Hsc]. apply Forall_cons_iff in Hsc. apply Hsc. }
  assert (Hcons : forall n, (n <= length (b :: l))%nat -> Forall okc cs -> encode_utf8 cs = firstn n (b :: l) ->
     got cs s (set_src (Some (consume n i1)) (pushed cs (offset s1 + str_len cs) s1))).
  { intros n Hn HF He. destruct (consume_bytes n i1) as [C1 C2]; [rewrite Hcur; exact Hn|].
    assert (Hx : sb s = encode_utf8 cs ++ all_bytes (consume n i1)) by (rewrite Hsb, <- Hab, C1, Hcur, He; reflexivity).
    constructor; try exact Hx; cbn; auto; try congruence.
    intros Hc. unfold cleans. cbn. apply C2, Hc1, Hcl, Hc. }
  destruct e as [|rest|rest]; cbn [urest] in *.
  - eapply wp_seq; [apply push_chars_utf8_exact| |intros er s'; apply (Hpush er s')|contradiction]. cbn beta.
    intros _ s' [-> HF]. apply wp_bind. unfold consume_m. eapply wp_io; [reflexivity| |discriminate].
    intros [] i2 [= <-]. apply wp_ret. exists cs. split; [|discriminate]. apply Hcons; [apply Nat.le_refl|exact HF|].
    rewrite app_nil_r in Hdec. rewrite <- Hdec. symmetry. apply (firstn_all (b :: l)).
  - destruct (Nat.eqb_spec (length (b :: l) - length rest) 0) as [H0|H0].
    + assert (cs = []) as ->.
      { pose proof (f_equal (@length byte) Hdec) as Hl. rewrite app_length in Hl.
        destruct cs as [|c cs]; [reflexivity|]. rewrite encode_utf8_cons, app_length in Hl.
        pose proof (encode_char_len c) as Hk. pose proof (len_utf8_pos c). unfold byte in *. lia. }
      cbn [app encode_utf8 flat_map] in *. subst rest.
      cbn [push_chars_utf8]. apply wp_bind, wp_ret. apply wp_bind.
      destruct (from_utf8_len _ _ _ Hu) as (_ & _ & Hinc). destruct (Hinc _ eq_refl eq_refl) as (b' & t & [= <- <-] & Hlead).
      pose proof (width_lead b Hlead) as Hw.
      unfold read_utf8_char_unbuffered. apply wp_bind. eapply wp_io; [reflexivity| |].
      2:{ intros e' i2 Hr Hc. destruct (read_exact_err _ _ _ _ Hr (proj1 (Hc1 (Hcl Hc)))) as [-> Hlen]. split; [right; reflexivity|].
          rewrite Hsb. exists [], (all_bytes i). split; [reflexivity|]. split; [constructor|]. apply bad_not_char.
          - rewrite Hbytes. discriminate.
          - intros c r Hsc' E. rewrite Hab in Hlen. rewrite E, app_length in Hlen. destruct (encode_utf8_char c) as [|b2 t2] eqn:Ec; [exact (encode_char_ne c Ec)|].
            destruct (char_head c b2 t2 Hsc' Ec) as [Hw2 _]. rewrite Hbytes in E. cbn [app] in E. injection E as <- _. unfold byte in *. lia. }
      intros buf i2 Hr. destruct (read_exact_bytes _ _ _ _ Hr) as (Hb2 & Hlen2 & Hc2). rewrite Hab in Hb2.
      assert (Hb0 : exists t2, buf = b :: t2).
      { destruct buf as [|b2 t2]; [cbn in Hlen2; lia|]. rewrite Hb2 in Hbytes. cbn [app] in Hbytes. injection Hbytes as -> _. eauto. }
      destruct Hb0 as (t2 & ->).
      assert (Hbadbuf : forall cs' e', from_utf8 (b :: t2) = (cs', e') -> e' <> UEnd -> spoiled (sb s)).
      { intros cs' e' Hu' He'. rewrite Hsb. exists [], (all_bytes i). split; [reflexivity|]. split; [constructor|]. apply bad_not_char.
        - rewrite Hb2. discriminate.
        - intros c r Hsc' E. destruct (encode_utf8_char c) as [|b3 t3] eqn:Ec; [exact (encode_char_ne c Ec)|].
          destruct (char_head c b3 t3 Hsc' Ec) as [Hw2 _]. rewrite Hb2 in E. cbn [app] in E. injection E as -> E.
          assert (t2 = t3) as ->.
          { assert (Hk : firstn (length t2) (t2 ++ all_bytes i2) = firstn (length t2) (t3 ++ r)) by (rewrite E; reflexivity).
            rewrite firstn_app, firstn_all, Nat.sub_diag, app_nil_r in Hk. rewrite Hk. cbn [length] in *.
            replace (length t2) with (length t3) by (unfold byte in *; lia). rewrite firstn_app, firstn_all, Nat.sub_diag, app_nil_r. reflexivity. }
          pose proof (from_utf8_char c [] Hsc') as F. rewrite app_nil_r, Ec, Hu' in F. cbn in F. congruence. }
      destruct (from_utf8 (b :: t2)) as [cs' e'] eqn:Hu'.
      destruct e'; [|apply wp_bind, wp_gets, wp_fail; intros _; split; [left; eauto|eapply Hbadbuf; [reflexivity|discriminate]] ..].
      destruct (from_utf8_sound _ _ _ Hu') as [Hdec' Hsc']. cbn [urest] in Hdec'. rewrite app_nil_r in Hdec'.
      destruct cs' as [|c cs']; [discriminate|].
      assert (cs' = []) as ->.
      { rewrite encode_utf8_cons in Hdec'. apply Forall_cons_iff in Hsc'. destruct Hsc' as [Hsc' _].
        destruct (encode_utf8_char c) as [|b3 t3] eqn:Ec; [destruct (encode_char_ne c Ec)|]. destruct (char_head c b3 t3 Hsc' Ec) as [Hw2 _].
        pose proof (f_equal (@length byte) Hdec') as Hl. cbn [app] in Hdec'. injection Hdec' as <- _. rewrite Hlen2 in Hl. rewrite app_length in Hl.
        apply encode_nil. apply length_zero_iff_nil. unfold byte in *. lia. }
      apply Forall_cons_iff in Hsc'. destruct Hsc' as [Hsc' _].
      assert (Ebuf : b :: t2 = encode_utf8_char c) by (rewrite Hdec'; cbn; apply app_nil_r).
      apply wp_bind, wp_gets, wp_bind. unfold wp, push_char. destruct (allowed_char c) eqn:Ha.
      * apply wp_modify, wp_ret. exists [c]. split; [|discriminate]. constructor; cbn; auto; try congruence.
        -- rewrite Hsb, Hb2, Ebuf, app_nil_r. reflexivity.
        -- rewrite <- Hlen2, Ebuf, N.add_0_r. rewrite encode_char_len. reflexivity.
        -- intros Hc. unfold cleans. cbn. apply Hc2, Hc1, Hcl, Hc.
      * intros _. split; [left; eauto|]. rewrite Hsb, Hb2, Ebuf. exists [], (encode_utf8_char c ++ all_bytes i2).
        split; [reflexivity|]. split; [constructor|]. apply bad_char; [exact Hsc'|]. unfold okc. rewrite Ha. discriminate.
    + eapply wp_seq; [apply push_chars_utf8_exact| |intros er s'; apply (Hpush er s')|contradiction]. cbn beta.
      intros _ s' [-> HF]. apply wp_bind. unfold consume_m. eapply wp_io; [reflexivity| |discriminate].
      intros [] i2 [= <-]. apply wp_ret. exists cs. split; [|discriminate]. change (got cs s (set_src (Some (consume (length (b :: l) - length rest) i1)) (pushed cs (offset s1 + str_len cs) s1))).
      apply Hcons; [apply Nat.le_sub_l|exact HF|].
      rewrite Hdec at 2. pose proof (f_equal (@length byte) Hdec) as Hl. rewrite app_length in Hl.
      replace (length (b :: l) - length rest)%nat with (length (encode_utf8 cs)) by (unfold byte in *; lia).
      rewrite firstn_app, firstn_all, Nat.sub_diag, app_nil_r. reflexivity.
  - eapply wp_seq; [apply push_chars_utf8_exact| |intros er s'; apply (Hpush er s')|contradiction]. cbn beta.
    intros _ s' [-> HF]. apply wp_bind, wp_gets, wp_fail. intros _. split; [left; eauto|]. rewrite Hsb, Hbytes.
    eexists cs, _. split; [reflexivity|]. split; [exact HF|]. pose proof (invalid_ext _ (evs_data (s_evs i1)) Hrest) as Hx.
    apply bad_not_char; [|eapply stuck_not_char, Hx]. destruct rest; [discriminate Hrest|discriminate].
Qed.

(** ** Filling the buffer *)
(** [text rest tx s]: the reader is free of I/O errors, the text not consumed yet is exactly [tx],
    followed by the bytes [rest] (nothing, or something that is not an allowed character), a prefix
    of it is in the buffer, and the end of the input is only signalled when all of it is. *)
Definition tail_ok (rest : list byte) : Prop := rest = [] \/ bad rest.
Lemma encode_split x : forall y rest z, Forall okc x -> Forall okc y -> tail_ok rest ->
  encode_utf8 y ++ rest = encode_utf8 x ++ z -> exists d, y = x ++ d /\ z = encode_utf8 d ++ rest.
Proof.
  induction x as [|c x IH]; intros y rest z Hx Hy Hr E.
  - exists y. split; [reflexivity|]. symmetry. exact E.
  - apply Forall_cons_iff in Hx. destruct Hx as [Hc Hx]. destruct y as [|c' y].
    + exfalso. rewrite encode_utf8_cons, <- app_assoc in E. change (encode_utf8 [] ++ rest) with rest in E. destruct Hr as [->|[_ Hb]].
      * symmetry in E. apply app_eq_nil in E. destruct E as [E _]. exact (encode_char_ne c E).
      * apply (Hb c _ (okc_scalar c Hc) E), Hc.
    + rewrite !encode_utf8_cons, <- !app_assoc in E. apply Forall_cons_iff in Hy. destruct Hy as [Hc' Hy].
      pose proof (char_prefix _ _ _ _ (okc_scalar _ Hc') (okc_scalar _ Hc) E) as ->. apply app_inv_head in E.
      destruct (IH _ _ _ Hx Hy Hr E) as (d & -> & ->). exists d. auto.
Qed.
Definition bom8 : list byte := [239; 187; 191].
Definition limit : N := 9223372036854775807.
Record text (rest : list byte) (tx : str) (s : sst) : Prop := {
  tx_clean : cleans s;
  tx_ok : Forall okc tx;
  tx_rest : tail_ok rest;
  tx_eof : eof s = true -> buffer s = tx /\ rest = [];
  tx_bytes :
    (enc s = Utf8 /\ offset s + N.of_nat (length (sb s)) < limit /\ exists x, tx = buffer s ++ x /\ sb s = encode_utf8 x ++ rest)
    \/ (enc s = EncAny /\ rest = [] /\ buffer s = [] /\ offset s + N.of_nat (length (sb s)) < limit /\
        (forall i, src s = Some i -> s_cur i = [] -> forall r, s_evs i <> SIntr :: r) /\
        (sb s = bom8 ++ encode_utf8 tx \/ sb s = encode_utf8 tx /\ hd 0 (encode_utf8 tx) <> 239)) }.

Lemma cleans_src s : cleans s -> src s <> None.
Proof. unfold cleans. destruct (src s); [discriminate|contradiction]. Qed.

Lemma text_got rest tx x s s' : text rest tx s -> enc s = Utf8 -> got x s s' -> (eof s' = true -> sb s' = []) -> text rest tx s'.
Proof.
  intros T He [] Hf. pose proof (tx_clean _ _ _ T) as Hc. destruct (tx_bytes _ _ _ T) as [(_ & Hl & y & E1 & E2)|(H & _)]; [|congruence].
  rewrite g_bytes0 in E2. symmetry in E2.
  assert (Hy : Forall okc y) by (pose proof (tx_ok _ _ _ T) as H; rewrite E1 in H; apply Forall_app in H; apply H).
  destruct (encode_split x y rest (sb s')) as (d & -> & Ed); [exact g_ok0|exact Hy|apply (tx_rest _ _ _ T)|exact E2|].
  assert (Hb : tx = buffer s' ++ d) by (rewrite E1, g_buf0, <- app_assoc; reflexivity).
  constructor; auto.
  - apply (tx_ok _ _ _ T).
  - apply (tx_rest _ _ _ T).
  - intros H. apply Hf in H. rewrite H in Ed. symmetry in Ed. apply app_eq_nil in Ed. destruct Ed as [Ed Er]. apply encode_nil in Ed.
    subst d. split; [|exact Er]. rewrite Hb, app_nil_r. reflexivity.
  - left. split; [congruence|]. split; [|eauto]. rewrite g_bytes0, app_length in Hl. pose proof (encode_len x). rewrite g_off0. unfold byte in *. lia.
Qed.
Lemma text_set_eof rest tx s : text rest tx s -> buffer s = tx -> rest = [] -> text rest tx (set_eof true s).
Proof. intros [] H. constructor; cbn; auto. Qed.

Lemma read_more_text rest tx s : text rest tx s -> enc s = Utf8 -> eof s = false ->
  wp read_more (fun b s' => text rest tx (if b : bool then s' else set_eof true s') /\ enc s' = Utf8 /\ (b = false -> buffer s' = tx /\ rest = []) /\
                            rd s s' /\ (b = true -> (ssize s' < ssize s)%nat))
     (fun e s' => rerr e /\ bad rest) (fun _ => False) s.
Proof.
  intros T He Hf. pose proof (tx_clean _ _ _ T) as Hc. pose proof (cleans_src _ Hc) as Hs. unfold read_more. apply wp_bind, wp_gets. rewrite He.
  eapply wp_conseq; [apply wp_and; [apply (read_utf8_exact s Hs)|apply (read_utf8_buffered_wp s Hs)]| | |]; cbn beta.
  - intros b s' [(x & G & Hb) (R & _ & Hm)].
    assert (T' : text rest tx s') by (eapply text_got; eauto; rewrite (g_eof _ _ _ G); congruence).
    assert (He' : enc s' = Utf8) by (rewrite (g_enc _ _ _ G); exact He).
    destruct b.
    + split; [exact T'|]. split; [exact He'|]. split; [discriminate|]. auto.
    + assert (Hx : buffer s' = tx /\ rest = []).
      { destruct (tx_bytes _ _ _ T') as [(_ & _ & y & E1 & E2)|(H & _)]; [|congruence].
        pose proof (g_bytes _ _ _ G) as Hg. rewrite (Hb Hc eq_refl) in Hg. symmetry in Hg. apply app_eq_nil in Hg. destruct Hg as [_ Hg].
        rewrite Hg in E2. symmetry in E2. apply app_eq_nil in E2. destruct E2 as [E2 E3]. apply encode_nil in E2. subst y. rewrite app_nil_r in E1. auto. }
      split; [apply text_set_eof; tauto|]. split; [exact He'|]. split; [auto|]. auto.
  - intros e s' [H _]. destruct (H Hc) as [He' Hsp]. destruct (tx_bytes _ _ _ T) as [(_ & _ & y & E1 & E2)|(H' & _)]; [|congruence].
    split; [exact He'|].
    rewrite E2 in Hsp. destruct (tx_rest _ _ _ T) as [->|Hb]; [|exact Hb]. exfalso. revert Hsp. rewrite app_nil_r. apply encode_not_spoiled.
    pose proof (tx_ok _ _ _ T) as Ho. rewrite E1 in Ho. apply Forall_app in Ho. apply Ho.
  - intros p [H _]. exact H.
Qed.

(** [full n tx s]: at least [n] characters are in the buffer, or all of the text is. *)
Definition full (rest : list byte) (n : nat) (tx : str) (s : sst) : Prop := (n <= length (buffer s))%nat \/ buffer s = tx /\ rest = [].

Lemma fill_loop_text len rest tx s : text rest tx s -> enc s = Utf8 ->
  wp (fill_loop len) (fun _ s' => text rest tx s' /\ rd s s' /\ enc s' = Utf8 /\ full rest len tx s') (fun e _ => rerr e /\ bad rest) (fun _ => False) s.
Proof.
  intros T He. unfold fill_loop, loop.
  apply (wp_loopM (fun _ s' => text rest tx s' /\ rd s s' /\ enc s' = Utf8) ssize).
  2:{ split; [exact T|]. split; [apply rd_refl|exact He]. }
  2:{ rewrite meas_eq. lia. }
  intros _ s1 (T1 & R1 & E1). apply wp_bind, wp_get.
  destruct (Nat.ltb_spec (length (buffer s1)) len) as [Hl|Hl].
  - destruct (eof s1) eqn:Heof.
    + apply wp_ret. split; [exact T1|]. split; [exact R1|]. split; [exact E1|]. right. apply (tx_eof _ _ _ T1 Heof).
    + eapply wp_seq; [apply (read_more_text _ _ _ T1 E1 Heof)| |auto|contradiction]. cbn beta.
      intros b s2 (T2 & E2 & Hb & R2 & Hm). pose proof (rd_trans _ _ _ R1 R2) as R. destruct b.
      * apply wp_ret. auto.
      * apply wp_bind, wp_modify, wp_ret. split; [exact T2|]. split; [eapply rd_trans; [exact R|apply rd_set_eof]|].
        split; [exact E2|]. right. exact (Hb eq_refl).
  - apply wp_ret. split; [exact T1|]. split; [exact R1|]. split; [exact E1|]. left. lia.
Qed.

Lemma encode_head_ok tx b r : Forall okc tx -> encode_utf8 tx = b :: r -> b < 254.
Proof.
  destruct tx as [|c tx]; [discriminate|]. rewrite encode_utf8_cons. intros HF E. apply Forall_cons_iff in HF. destruct HF as [Hc _].
  apply okc_scalar in Hc. destruct (encode_utf8_char c) as [|b' t] eqn:Ec; [destruct (encode_char_ne c Ec)|].
  pose proof (char_head c b' t Hc Ec) as [Hw Hb]. cbn [app] in E. injection E as -> _. rewrite width_tab in Hw by exact Hb.
  destruct (N.ltb_spec b 248); [lia|]. exfalso. replace (b <? 128) with false in Hw by lia. replace (b <? 192) with false in Hw by lia.
  replace (b <? 224) with false in Hw by lia. replace (b <? 240) with false in Hw by lia. discriminate.
Qed.

Lemma determine_text rest tx s : text rest tx s -> enc s = EncAny ->
  wp determine_encoding (fun o s' => rd s s' /\ buffer s' = [] /\ enc s' = EncAny /\
      match o with
      | Some e => e = Utf8 /\ text rest tx (set_enc e s')
      | None => tx = [] /\ rest = [] /\ text rest tx s'
      end) (fun _ _ => False) (fun _ => False) s.
Proof.
  intros T He. pose proof (tx_clean _ _ _ T) as Hc. unfold cleans in Hc. destruct (src s) as [i|] eqn:Ei; [|contradiction].
  destruct (tx_bytes _ _ _ T) as [(H & _)|(_ & Hrest0 & Hbuf & Hl & Hfirst & Hby)]; [congruence|]. unfold sb in Hl, Hby. rewrite Ei in Hl, Hby.
  specialize (Hfirst i Ei). rewrite Hrest0 in *. clear Hrest0. pose proof (tx_ok _ _ _ T) as Hok.
  assert (Htail : forall i', all_bytes i' = encode_utf8 tx -> clean i' -> text [] tx (set_enc Utf8 (set_src (Some i') s))).
  { intros i' Hi' Hc'. constructor; cbn; auto.
    - apply (tx_rest _ _ _ T).
    - apply (tx_eof _ _ _ T).
    - left. split; [reflexivity|]. change (sb (set_enc Utf8 (set_src (Some i') s))) with (all_bytes i'). rewrite Hi', Hbuf. cbn [app].
      split; [|exists tx; rewrite app_nil_r; auto]. destruct Hby as [Hby|[Hby _]]; rewrite Hby in Hl; rewrite ?app_length in Hl; unfold byte in *; lia. }
  unfold determine_encoding. apply wp_bind. eapply wp_io; [exact Ei| |].
  2:{ intros e i' Hf. unfold fill_buf in Hf. destruct (s_cur i); [|discriminate]. specialize (Hfirst eq_refl).
      unfold clean in Hc. destruct (s_evs i) as [|[d| |k] r]; try discriminate.
      - destruct (Hfirst r eq_refl).
      - apply Forall_cons_iff in Hc. apply Hc. }
  intros l i1 Hf. pose proof Hf as Hf0. apply fill_buf_bytes in Hf. destruct Hf as (Hcur & Hab & Hcl). destruct (Hcl Hc) as [Hc1 Hnil].
  assert (R1 : rd s (set_src (Some i1) s)) by apply rd_set_src.
  destruct l as [|b l].
  { apply wp_ret. split; [exact R1|]. split; [exact Hbuf|]. split; [exact He|].
    rewrite (Hnil eq_refl) in Hby. assert (Htx : tx = []).
    { destruct Hby as [Hby|[Hby _]]; [discriminate Hby|]. symmetry in Hby. apply encode_nil, Hby. }
    split; [exact Htx|]. split; [reflexivity|]. subst tx. constructor; cbn; auto; [apply (tx_rest _ _ _ T)|].
    right. split; [exact He|]. split; [reflexivity|]. split; [exact Hbuf|]. change (sb (set_src (Some i1) s)) with (all_bytes i1). rewrite Hab.
    split; [exact Hl|]. split.
    - intros j [= <-] _ r Hr. unfold fill_buf in Hf0. unfold clean in Hc. destruct (s_cur i) as [|? ?]; [|discriminate].
      destruct (s_evs i) as [|[d| |k] r'] eqn:Ev; try discriminate.
      + injection Hf0 as <-. congruence.
      + injection Hf0 as -> <-. apply Forall_cons_iff in Hc. destruct Hc as [Hc _]. exact (Hc eq_refl).
    - right. split; [rewrite (Hnil eq_refl); reflexivity|]. cbn. discriminate. }
  pose proof (all_bytes_eq i1) as Hb1. rewrite Hcur in Hb1. cbn [app] in Hb1. rewrite Hab in Hb1.
  destruct (N.eqb_spec b 239) as [->|Hne].
  - destruct Hby as [Hby|[Hby Hhd]].
    2:{ exfalso. apply Hhd. rewrite <- Hby, Hb1. reflexivity. }
    apply wp_bind. eapply wp_io; [reflexivity| |].
    + intros bm i2 Hr. apply read_exact_bytes in Hr. destruct Hr as (Hr & Hlen & Hc2). rewrite Hab, Hby in Hr.
      assert (Hbm : bm = bom8 /\ all_bytes i2 = encode_utf8 tx).
      { destruct bm as [|x1 [|x2 [|x3 [|x4 bm]]]]; try discriminate Hlen. cbn [app bom8] in Hr. injection Hr as <- <- <- Hr. auto. }
      destruct Hbm as [-> Hi2]. cbn [bytes_eqb str_eqb bom8]. rewrite !N.eqb_refl. cbn [andb].
      apply wp_ret. split; [eapply rd_trans; [exact R1|apply rd_set_src]|]. split; [exact Hbuf|]. split; [exact He|].
      split; [reflexivity|]. apply Htail; [exact Hi2|apply Hc2, Hc1].
    + intros e i2 Hr. destruct (read_exact_err _ _ _ _ Hr Hc1) as [_ Hlen]. rewrite Hab, Hby in Hlen. cbn in Hlen. lia.
  - assert (Htx : all_bytes i = encode_utf8 tx).
    { destruct Hby as [Hby|[Hby _]]; [|exact Hby]. rewrite Hby in Hb1. cbn [app bom8] in Hb1. injection Hb1 as H _. congruence. }
    pose proof (encode_head_ok tx b (l ++ evs_data (s_evs i1)) Hok ltac:(rewrite <- Htx; exact Hb1)) as Hlt.
    replace (b =? 255) with false by lia. replace (b =? 254) with false by lia. cbn [orb].
    apply wp_ret. split; [exact R1|]. split; [exact Hbuf|]. split; [exact He|]. split; [reflexivity|].
    apply Htail; [congruence|exact Hc1].
Qed.

Lemma cache_text len rest tx s : text rest tx s ->
  wp (cache len) (fun _ s' => text rest tx s' /\ rd s s' /\ full rest len tx s') (fun e _ => rerr e /\ bad rest) (fun _ => False) s.
Proof.
  intros T. unfold cache. apply wp_bind, wp_get.
  destruct (Nat.leb_spec len (length (buffer s))) as [Hl|Hl].
  { apply wp_ret. split; [exact T|]. split; [apply rd_refl|]. left; exact Hl. }
  unfold update_buffer. apply wp_bind, wp_get.
  pose proof (cleans_src _ (tx_clean _ _ _ T)) as Hs. destruct (src s) as [i|] eqn:Ei; [|congruence].
  destruct (Nat.leb_spec len (length (buffer s))) as [Hl'|_]; [lia|].
  apply wp_bind. eapply wp_conseq with
    (Q := fun done s' => text rest tx s' /\ rd s s' /\ if done : bool then buffer s' = tx /\ rest = [] else enc s' = Utf8)
    (E := fun _ _ => False) (P := fun _ => False); [| |contradiction|contradiction].
  - destruct (encoding_eqb (enc s) EncAny) eqn:He.
    + apply encoding_eqb_eq in He. eapply wp_seq; [apply (determine_text _ _ _ T He)| |contradiction|contradiction].
      cbn beta. intros [e|] s1 (R1 & Hb & He1 & Ho).
      * destruct Ho as [-> Ht]. apply wp_bind, wp_modify, wp_ret. split; [exact Ht|]. split; [|reflexivity].
        eapply rd_trans; [exact R1|apply rd_set_enc, He1].
      * destruct Ho as (-> & -> & Ht). apply wp_bind, wp_modify, wp_ret. split; [apply text_set_eof; auto|].
        split; [eapply rd_trans; [exact R1|apply rd_set_eof]|auto].
    + apply wp_ret. split; [exact T|]. split; [apply rd_refl|].
      destruct (tx_bytes _ _ _ T) as [(H & _)|(H & _)]; [exact H|]. rewrite H in He. discriminate.
  - cbn beta. intros done s1 (T1 & R1 & Hd). destruct done.
    + apply wp_ret. split; [exact T1|]. split; [exact R1|]. right. exact Hd.
    + eapply wp_seq; [apply (fill_loop_text len rest tx s1 T1 Hd)| |auto|contradiction]. cbn beta.
      intros b s2 (T2 & R2 & E2 & F2). pose proof (rd_trans _ _ _ R1 R2) as R. destruct b; [apply wp_ret; split; [exact T2|split; [exact R|exact F2]]|].
      apply wp_bind, wp_gets. change 9223372036854775807 with limit. destruct (N.leb_spec limit (offset s2)) as [Hlim|_]; [|apply wp_ret; split; [exact T2|split; [exact R|exact F2]]].
      exfalso. destruct (tx_bytes _ _ _ T2) as [(_ & H & _)|(H & _)]; [lia|congruence].
Qed.

(** Taking a character out of the buffer. *)
Lemma text_pop rest c tx b s : text rest (c :: tx) s -> buffer s = c :: b -> text rest tx (set_buffer b s).
Proof.
  intros T Hb. constructor; cbn.
  - apply (tx_clean _ _ _ T).
  - pose proof (tx_ok _ _ _ T) as H. apply Forall_cons_iff in H. apply H.
  - apply (tx_rest _ _ _ T).
  - intros H. destruct (tx_eof _ _ _ T H). split; congruence.
  - destruct (tx_bytes _ _ _ T) as [(H1 & H2 & x & H3 & H4)|(_ & _ & H & _)]; [|congruence]. left. split; [exact H1|]. split; [exact H2|].
    exists x. split; [|exact H4]. rewrite Hb in H3. cbn [app] in H3. congruence.
Qed.
Lemma text_buffer rest tx s : text rest tx s -> exists x, tx = buffer s ++ x.
Proof. intros T. destruct (tx_bytes _ _ _ T) as [(_ & _ & x & H & _)|(_ & _ & H & _)]; [eauto|]. exists tx. rewrite H. reflexivity. Qed.
