(** ReaderFacts.v -- what the reader does to the scanner state, for every input stream. *)
From Coq Require Import ZifyBool ZifyNat ZifyN.
From Verif Require Import Base Utf Chars State Reader Wp.

(** ** Streams *)

Definition ev_bytes (e : src_ev) : nat := match e with SData l => length l | _ => 0%nat end.
Definition evs_bytes (l : list src_ev) : nat := fold_right (fun e n => (ev_bytes e + n)%nat) 0%nat l.
Definition src_bytes (i : source) : nat := (length (s_cur i) + evs_bytes (s_evs i))%nat.
Definition evs_size (l : list src_ev) : nat :=
  fold_right (fun e n => (match e with SData l => S (length l) | _ => 1 end + n)%nat) 0%nat l.

Lemma evs_size_cons e l : evs_size (e :: l) = (match e with SData d => S (length d) | _ => 1 end + evs_size l)%nat.
Proof. reflexivity. Qed.
Lemma evs_bytes_cons e l : evs_bytes (e :: l) = (ev_bytes e + evs_bytes l)%nat.
Proof. reflexivity. Qed.

Lemma src_size_eq i : src_size i = (length (s_cur i) + evs_size (s_evs i))%nat.
Proof. reflexivity. Qed.

Lemma fill_buf_ok i l i' : fill_buf i = (inl l, i') ->
  s_cur i' = l /\ (src_size i' <= src_size i)%nat /\ src_bytes i' = src_bytes i.
Proof.
  unfold fill_buf. destruct i as [cur evs]. rewrite !src_size_eq. unfold src_bytes. cbn.
  destruct cur as [|b cur].
  - destruct evs as [|[d| |k] evs]; intros [= <- <-]; cbn; repeat split; lia.
  - intros [= <- <-]; cbn; repeat split; lia.
Qed.

Lemma fill_buf_retry_ok i l i' : fill_buf_retry i = (inl l, i') ->
  s_cur i' = l /\ (src_size i' <= src_size i)%nat /\ src_bytes i' = src_bytes i.
Proof.
  unfold fill_buf_retry. destruct i as [cur evs]. rewrite !src_size_eq. unfold src_bytes. cbn [s_cur s_evs].
  destruct cur as [|b cur].
  - cbn [length]. revert l i'. induction evs as [|[d| |k] evs IH]; cbn [fill_buf_retry_go]; intros l i'.
    + intros [= <- <-]; unfold evs_size, evs_bytes; cbn; repeat split; lia.
    + intros [= <- <-]; unfold evs_size, evs_bytes; cbn; repeat split; lia.
    + intros H. destruct (IH _ _ H) as (H1 & H2 & H3). rewrite evs_size_cons, evs_bytes_cons.
      cbn [ev_bytes]. repeat split; try assumption; lia.
    + discriminate.
  - intros [= <- <-]; unfold evs_size, evs_bytes; cbn; repeat split; lia.
Qed.

Lemma read_exact_go_ok evs : forall n acc cur l i',
  read_exact_go evs n acc cur = (inl l, i') ->
  length l = (length acc + n)%nat /\
  (src_size i' + n <= length cur + evs_size evs)%nat /\
  (src_bytes i' + n = length cur + evs_bytes evs)%nat.
Proof.
  induction evs as [|ev evs IH]; intros n acc cur l i'; cbn [read_exact_go].
  - destruct (Nat.eqb_spec (length (firstn n cur)) n) as [Hn|Hn]; [|discriminate].
    intros [= <- <-]. rewrite firstn_length in Hn. rewrite app_length, firstn_length, src_size_eq.
    unfold src_bytes. cbn. rewrite skipn_length. lia.
  - destruct (Nat.eqb_spec (length (firstn n cur)) n) as [Hn|Hn].
    + intros [= <- <-]. rewrite firstn_length in Hn. rewrite app_length, firstn_length, src_size_eq.
      unfold src_bytes. cbn [s_cur s_evs]. rewrite skipn_length. lia.
    + rewrite firstn_length in *.
      destruct ev as [[|b d]| |k]; try discriminate; intros H; apply IH in H;
        rewrite app_length, firstn_length in H; rewrite evs_size_cons, evs_bytes_cons;
        cbn [length ev_bytes] in *; lia.
Qed.

Lemma read_exact_ok n i l i' : read_exact n i = (inl l, i') ->
  length l = n /\ (src_size i' + n <= src_size i)%nat /\ (src_bytes i' + n = src_bytes i)%nat.
Proof.
  unfold read_exact. intros H. apply read_exact_go_ok in H. cbn [length] in H.
  rewrite src_size_eq. unfold src_bytes. exact H.
Qed.

Lemma consume_size n i : (n <= length (s_cur i))%nat ->
  (src_size (consume n i) + n = src_size i)%nat /\ (src_bytes (consume n i) + n = src_bytes i)%nat.
Proof.
  intros H. rewrite !src_size_eq. unfold src_bytes, consume. cbn [s_cur s_evs]. rewrite skipn_length. lia.
Qed.

(** ** UTF-8 validation *)

Definition end_rest (e : utf8_end) : list byte :=
  match e with UEnd => [] | UIncomplete r | UInvalid r => r end.

Ltac fin := intros [= <- <-]; cbn [end_rest str_len length]; split; [lia|split; [congruence|]];
  first [discriminate | intros r _ _; eexists _, _; split; [reflexivity|lia]].
Lemma from_utf8_len_n n : forall l cs e, (length l <= n)%nat -> from_utf8 l = (cs, e) ->
  (str_len cs + N.of_nat (length (end_rest e)) = N.of_nat (length l))
  /\ (e = UEnd -> l <> [] -> cs <> [])
  /\ (forall r, e = UIncomplete r -> length r = length l -> exists b t, l = b :: t /\ 194 <= b <= 244).
Proof.
  induction n as [|n IH]; intros l cs e Hl.
  - destruct l; [|cbn in Hl; lia]. cbn. intros [= <- <-]. cbn. repeat split; try congruence.
  - destruct l as [|b1 r1]; [cbn; intros [= <- <-]; cbn; repeat split; congruence|].
    cbn [from_utf8]. cbn [length] in Hl.
    destruct (N.ltb_spec b1 128) as [H1|H1].
    { destruct (from_utf8 r1) as [cs' e'] eqn:E. intros [= <- <-].
      apply IH in E; [|lia]. destruct E as (E1 & E2 & E3).
      cbn [str_len length]. unfold len_utf8. rewrite (proj2 (N.ltb_lt b1 128) H1).
      split; [lia|split; [congruence|]]. intros r -> Hr. cbn [end_rest] in E1. lia. }
    destruct ((194 <=? b1) && (b1 <=? 223)) eqn:H2.
    { destruct r1 as [|b2 r2]; [solve [fin]|].
      destruct (cont b2) eqn:Hc; [|solve [fin]].
      destruct (from_utf8 r2) as [cs' e'] eqn:E. intros [= <- <-].
      apply IH in E; [|cbn in Hl; lia]. destruct E as (E1 & E2 & E3).
      unfold cont in Hc. cbn [str_len length]. unfold len_utf8.
      assert (Hr : 128 <= (b1 - 192) * 64 + (b2 - 128) < 2048) by lia.
      rewrite (proj2 (N.ltb_ge _ 128)) by lia. rewrite (proj2 (N.ltb_lt _ 2048)) by lia.
      split; [lia|split; [congruence|]]. intros r -> Hr'. cbn [end_rest] in E1. cbn [length] in Hr'. lia. }
    destruct ((224 <=? b1) && (b1 <=? 239)) eqn:H3.
    { destruct r1 as [|b2 r2]; [solve [fin]|].
      destruct (second3 b1 b2) eqn:Hc; [|solve [fin]].
      destruct r2 as [|b3 r3]; [solve [fin]|].
      destruct (cont b3) eqn:Hc3; [|solve [fin]].
      destruct (from_utf8 r3) as [cs' e'] eqn:E. intros [= <- <-].
      apply IH in E; [|cbn in Hl; lia]. destruct E as (E1 & E2 & E3).
      unfold second3, cont in *. cbn [str_len length]. unfold len_utf8.
      assert (Hr : 2048 <= (b1 - 224) * 4096 + (b2 - 128) * 64 + (b3 - 128) < 65536).
      { destruct (N.eqb_spec b1 224); [lia|]. destruct (N.eqb_spec b1 237); lia. }
      rewrite (proj2 (N.ltb_ge _ 128)) by lia. rewrite (proj2 (N.ltb_ge _ 2048)) by lia.
      rewrite (proj2 (N.ltb_lt _ 65536)) by lia.
      split; [lia|split; [congruence|]]. intros r -> Hr'. cbn [end_rest] in E1. cbn [length] in Hr'. lia. }
    destruct ((240 <=? b1) && (b1 <=? 244)) eqn:H4.
    { destruct r1 as [|b2 r2]; [solve [fin]|].
      destruct (second4 b1 b2) eqn:Hc; [|solve [fin]].
      destruct r2 as [|b3 r3]; [solve [fin]|].
      destruct (cont b3) eqn:Hc3; [|solve [fin]].
      destruct r3 as [|b4 r4]; [solve [fin]|].
      destruct (cont b4) eqn:Hc4; [|solve [fin]].
      destruct (from_utf8 r4) as [cs' e'] eqn:E. intros [= <- <-].
      apply IH in E; [|cbn in Hl; lia]. destruct E as (E1 & E2 & E3).
      unfold second4, cont in *. cbn [str_len length]. unfold len_utf8.
      assert (Hr : 65536 <= (b1 - 240) * 262144 + (b2 - 128) * 4096 + (b3 - 128) * 64 + (b4 - 128)).
      { destruct (N.eqb_spec b1 240); [lia|]. destruct (N.eqb_spec b1 244); lia. }
      rewrite (proj2 (N.ltb_ge _ 128)) by lia. rewrite (proj2 (N.ltb_ge _ 2048)) by lia.
      rewrite (proj2 (N.ltb_ge _ 65536)) by lia.
      split; [lia|split; [congruence|]]. intros r -> Hr'. cbn [end_rest] in E1. cbn [length] in Hr'. lia. }
    fin.
Qed.

Lemma from_utf8_len l cs e : from_utf8 l = (cs, e) ->
  (str_len cs + N.of_nat (length (end_rest e)) = N.of_nat (length l))
  /\ (e = UEnd -> l <> [] -> cs <> [])
  /\ (forall r, e = UIncomplete r -> length r = length l -> exists b t, l = b :: t /\ 194 <= b <= 244).
Proof. apply (from_utf8_len_n (length l)); lia. Qed.

Lemma len_utf8_pos c : 1 <= len_utf8 c.
Proof. unfold len_utf8. destruct (c <? 128), (c <? 2048), (c <? 65536); lia. Qed.
Lemma len_utf8_max c : len_utf8 c <= 4.
Proof. unfold len_utf8. destruct (c <? 128), (c <? 2048), (c <? 65536); lia. Qed.
Lemma len_utf16_pos c : 1 <= len_utf16 c.
Proof. unfold len_utf16. destruct (c <? 65536); lia. Qed.
Lemma str_len_ge s : N.of_nat (length s) <= str_len s.
Proof. induction s as [|c s IH]; cbn [str_len length]; [lia|]. pose proof (len_utf8_pos c). lia. Qed.
Lemma str_len_app a b : str_len (a ++ b) = str_len a + str_len b.
Proof. induction a as [|c a IH]; cbn [str_len app]; [lia|rewrite IH; lia]. Qed.

Lemma width_lead : forall b, 194 <= b <= 244 -> (2 <= utf8_char_width b <= 4)%nat.
Proof.
  assert (H : forallb (fun k => let w := utf8_char_width (N.of_nat k) in Nat.leb 2 w && Nat.leb w 4)
                      (seq 194 51) = true) by (vm_compute; reflexivity).
  intros b Hb. rewrite forallb_forall in H.
  specialize (H (N.to_nat b)). rewrite N2Nat.id in H.
  assert (Hin : In (N.to_nat b) (seq 194 51)) by (apply in_seq; lia).
  specialize (H Hin). cbn beta zeta in H. lia.
Qed.

Lemma u16s_len be n : forall l, (length l <= n)%nat -> (2 * length (u16s be l) <= length l)%nat.
Proof.
  induction n as [|n IH]; intros l Hl.
  - destruct l; [cbn; lia|cbn in Hl; lia].
  - destruct l as [|a [|b r]]; [cbn; lia|cbn; lia|]. cbn [u16s length] in *.
    specialize (IH r ltac:(lia)). lia.
Qed.

Definition str_len16 (cs : str) : N := fold_right (fun c n => len_utf16 c + n) 0 cs.
Lemma decode_utf16_len n : forall l, (length l <= n)%nat ->
  str_len16 (decode_utf16_prefix l) <= 2 * N.of_nat (length l).
Proof.
  induction n as [|n IH]; intros l Hl.
  - destruct l; [cbn; lia|cbn in Hl; lia].
  - destruct l as [|u r]; [cbn; lia|]. cbn [decode_utf16_prefix length] in *.
    destruct (is_surrogate u) eqn:Hs; cbn [negb].
    + destruct (is_low_surrogate u); [cbn; lia|].
      destruct r as [|v r]; [cbn; lia|]. destruct (is_low_surrogate v) eqn:Hv; [|cbn; lia].
      cbn [str_len16 fold_right length] in *. fold (str_len16 (decode_utf16_prefix r)).
      specialize (IH r ltac:(lia)). unfold len_utf16 at 1. destruct (_ <? 65536); lia.
    + cbn [str_len16 fold_right]. fold (str_len16 (decode_utf16_prefix r)).
      specialize (IH r ltac:(lia)). unfold len_utf16.
      destruct (N.ltb_spec u 65536); lia.
Qed.

(** ** Effect of the reader on the state *)

(** The fields neither the reader nor the scan_ functions touch. *)
Definition frame (s : sst) :=
  (stream_start_produced s, stream_end_produced s, flow_level s, tokens s, tokens_parsed s,
   token_available s, indents s, indent s, simple_keys s, debug_build s).

Definition okc (c : char) : Prop := allowed_char c = true.
Definition utf16 (e : encoding) : bool := match e with Utf16Le | Utf16Be => true | _ => false end.

Definition ssize (s : sst) : nat := match src s with Some i => src_size i | None => 0%nat end.
Definition sbytes (s : sst) : nat := match src s with Some i => src_bytes i | None => 0%nat end.
(** Characters and bytes not consumed yet: bound of the number of characters still to come. *)
Definition vol (s : sst) : nat := (length (buffer s) + sbytes s)%nat.
(** Bytes of the text not consumed yet. *)
Definition blen (s : sst) : N := str_len (buffer s) + N.of_nat (sbytes s).

Lemma meas_eq s : meas s = (length (buffer s) + ssize s)%nat.
Proof. reflexivity. Qed.

(** The reader only appends allowed characters to the buffer. *)
Record rd (s s' : sst) : Prop := {
  rd_frame : frame s' = frame s;
  rd_ska : simple_key_allowed s' = simple_key_allowed s;
  rd_pos : pos s' = pos s;
  rd_src : src s <> None -> src s' <> None;
  rd_buf : exists x, buffer s' = buffer s ++ x /\ Forall okc x;
  rd_enc : enc s <> EncAny -> enc s' = enc s;
  rd_eof : eof s = true -> eof s' = true }.
(** When it succeeds it does not produce more than it consumes. *)
Record rdm (s s' : sst) : Prop := {
  rdm_meas : (meas s' <= meas s)%nat;
  rdm_vol : (vol s' <= vol s)%nat;
  rdm_blen : utf16 (enc s') = false -> blen s' <= blen s }.

Lemma rd_refl s : rd s s.
Proof. constructor; auto. exists []. rewrite app_nil_r. auto. Qed.
Lemma rd_trans a b c : rd a b -> rd b c -> rd a c.
Proof.
  intros [] []. constructor; try congruence; auto.
  - destruct rd_buf0 as (x & Hx & Fx), rd_buf1 as (y & Hy & Fy). exists (x ++ y).
    rewrite Hy, Hx, app_assoc. split; [reflexivity|]. apply Forall_app; auto.
  - intros He. rewrite rd_enc1; [auto|]. rewrite rd_enc0; auto.
Qed.
Lemma rdm_refl s : rdm s s.
Proof. constructor; lia. Qed.
Lemma rdm_trans a b c : rd b c -> rdm a b -> rdm b c -> rdm a c.
Proof.
  intros R [] []. constructor; try lia. intros H. etransitivity; [apply rdm_blen1, H|].
  apply rdm_blen0. destruct (enc b) eqn:E; try reflexivity;
    rewrite (rd_enc _ _ R) in H; rewrite E in *; try congruence; discriminate.
Qed.

(** The only panic of the reader. *)
Definition rd_panic (s : sst) (p : panic) : Prop := p = PDebugAssert /\ debug_build s = true.

Lemma frame_dbg s s' : frame s' = frame s -> debug_build s' = debug_build s.
Proof. unfold frame. congruence. Qed.

Lemma wp_io {A} (f : source -> (A + ioerr) * source) (Q : A -> sst -> Prop) (E : error -> sst -> Prop) (P : panic -> Prop) s i :
  src s = Some i ->
  (forall a i', f i = (inl a, i') -> Q a (set_src (Some i') s)) ->
  (forall e i', f i = (inr e, i') -> E (EIo e) (set_src (Some i') s)) ->
  wp (io f) Q E P s.
Proof.
  intros Hs HQ HE. unfold wp, io. rewrite Hs. destruct (f i) as [[a|e] i'] eqn:H; auto.
Qed.

Lemma rd_set_src s i : rd s (set_src (Some i) s).
Proof. constructor; cbn; auto; try congruence. exists []. rewrite app_nil_r. auto. Qed.

Definition pushed (x : str) (off : N) (s : sst) : sst := set_offset off (set_buffer (buffer s ++ x) s).

Lemma rd_pushed x off s : Forall okc x -> rd s (pushed x off s).
Proof. intros H. constructor; cbn; auto. exists x; auto. Qed.
Lemma pushed_pushed x y o1 o2 s : pushed y o2 (pushed x o1 s) = pushed (x ++ y) o2 s.
Proof. unfold pushed, set_offset, set_buffer. cbn. rewrite app_assoc. reflexivity. Qed.
Lemma pushed_nil s : pushed [] (offset s) s = s.
Proof. destruct s; unfold pushed, set_offset, set_buffer; cbn. rewrite app_nil_r. reflexivity. Qed.

(** The reader fails with reader and I/O errors only. *)
Definition rd_err (e : error) : Prop := match e with EReader _ _ _ | EIo _ => True | _ => False end.

Lemma push_chars_utf8_wp cs : forall s,
  wp (push_chars_utf8 cs) (fun _ s' => s' = pushed cs (offset s + str_len cs) s /\ Forall okc cs)
     (fun e s' => rd_err e /\ exists x off, s' = pushed x off s /\ Forall okc x) (fun _ => False) s.
Proof.
  induction cs as [|c cs IH]; intros s; cbn [push_chars_utf8].
  - cbn [str_len]. rewrite N.add_0_r, pushed_nil. apply wp_ret; auto.
  - repeat wp_step. unfold wp, push_char. destruct (allowed_char c) eqn:Ha.
    + apply wp_bind, wp_modify. eapply wp_conseq; [apply IH| | |auto]; cbn beta.
      * intros _ s' [-> HF]. split; [|constructor; assumption].
        cbn [str_len]. unfold pushed, set_offset, set_buffer. cbn. rewrite <- app_assoc.
        f_equal. lia.
      * intros e s' (He & x & off & -> & HF). split; [exact He|]. exists (c :: x), off. split; [|constructor; assumption].
        unfold pushed, set_offset, set_buffer. cbn. rewrite <- app_assoc. reflexivity.
    + split; [exact I|]. exists [], (offset s). rewrite pushed_nil. auto.
Qed.

Lemma push_chars_utf16_wp cs : forall used s,
  wp (push_chars_utf16 cs used)
     (fun u s' => s' = pushed cs (offset s + str_len16 cs) s /\ u = used + str_len16 cs /\ Forall okc cs)
     (fun e s' => rd_err e /\ exists x off, s' = pushed x off s /\ Forall okc x) (fun _ => False) s.
Proof.
  induction cs as [|c cs IH]; intros used s; cbn [push_chars_utf16].
  - cbn [str_len16 fold_right]. rewrite N.add_0_r, pushed_nil. apply wp_ret; repeat split; auto; lia.
  - repeat wp_step. unfold wp, push_char. destruct (allowed_char c) eqn:Ha.
    + apply wp_bind, wp_modify. eapply wp_conseq; [apply IH| | |auto]; cbn beta.
      * intros u s' (-> & -> & HF).
        cbn [str_len16 fold_right]. fold (str_len16 cs).
        split; [|split; [lia|constructor; assumption]].
        unfold pushed, set_offset, set_buffer. cbn. rewrite <- app_assoc. f_equal. lia.
      * intros e s' (He & x & off & -> & HF). split; [exact He|]. exists (c :: x), off. split; [|constructor; assumption].
        unfold pushed, set_offset, set_buffer. cbn. rewrite <- app_assoc. reflexivity.
    + split; [exact I|]. exists [], (offset s). rewrite pushed_nil. auto.
Qed.

Lemma str_len16_ge s : N.of_nat (length s) <= str_len16 s.
Proof.
  induction s as [|c s IH]; cbn [str_len16 fold_right length]; [lia|]. fold (str_len16 s).
  pose proof (len_utf16_pos c). lia.
Qed.

(** What a successful step of the reader that made progress guarantees. *)
Definition rd_step (s s' : sst) : Prop := rd s s' /\ rdm s s' /\ (ssize s' < ssize s)%nat.


(** Reading from stream [i] to stream [i'] and pushing [x]. *)
Lemma rd_io_pushed s i i' x off n :
  src s = Some i -> (src_size i' + n <= src_size i)%nat -> (src_bytes i' + n <= src_bytes i)%nat ->
  (length x <= n)%nat -> (1 <= n)%nat -> Forall okc x ->
  (utf16 (enc s) = false -> str_len x <= N.of_nat n) ->
  rd_step s (pushed x off (set_src (Some i') s)).
Proof.
  intros Hs H1 H2 H3 H4 HF HU. split; [|split].
  - eapply rd_trans; [apply (rd_set_src s i')|]. apply rd_pushed, HF.
  - constructor.
    + rewrite !meas_eq. unfold ssize. rewrite Hs. cbn. rewrite app_length. lia.
    + unfold vol, sbytes. rewrite Hs. cbn. rewrite app_length. lia.
    + unfold blen, sbytes. rewrite Hs. cbn. rewrite str_len_app. intros H. specialize (HU H). lia.
  - unfold ssize. rewrite Hs. cbn. lia.
Qed.

Lemma okc1 c : allowed_char c = true -> Forall okc [c].
Proof. intros H. constructor; [exact H|constructor]. Qed.

Lemma determine_encoding_wp s : src s <> None ->
  wp determine_encoding
     (fun o s' => rd s s' /\ rdm s s' /\ (o <> Some EncAny) /\ enc s' = enc s /\ buffer s' = buffer s)
     (fun e s' => rd_err e /\ rd s s' /\ buffer s' = buffer s) (fun _ => False) s.
Proof.
  intros Hs. destruct (src s) as [i|] eqn:Ei; [|congruence]. clear Hs.
  assert (Hio : forall i', (src_size i' <= src_size i)%nat -> (src_bytes i' <= src_bytes i)%nat ->
                rdm s (set_src (Some i') s)).
  { intros i' H1 H2. constructor.
    - rewrite !meas_eq. unfold ssize. rewrite Ei. cbn. lia.
    - unfold vol, sbytes. rewrite Ei. cbn. lia.
    - unfold blen, sbytes. rewrite Ei. cbn. lia. }
  unfold determine_encoding. apply wp_bind. eapply wp_io; [exact Ei| |].
  2:{ intros e i' _. split; [exact I|split; [apply rd_set_src|reflexivity]]. }
  intros l i1 Hf. apply fill_buf_ok in Hf. destruct Hf as (Hc & Hz & Hb).
  assert (Hrd1 : rd s (set_src (Some i1) s)) by apply rd_set_src.
  assert (Hsrc2 : forall i2, set_src (Some i2) (set_src (Some i1) s) = set_src (Some i2) s) by reflexivity.
  destruct l as [|b l].
  - apply wp_ret. split; [assumption|]. split; [apply Hio; lia|]. split; [congruence|split; reflexivity].
  - destruct (b =? 239); [|destruct ((b =? 255) || (b =? 254))].
    + apply wp_bind. eapply wp_io; [reflexivity| |].
      * intros bom i2 Hr. apply read_exact_ok in Hr. rewrite Hsrc2.
        destruct (bytes_eqb _ _).
        -- apply wp_ret. split; [apply rd_set_src|]. split; [apply Hio; lia|]. split; [congruence|split; reflexivity].
        -- apply wp_fail. split; [exact I|split; [apply rd_set_src|reflexivity]].
      * intros e i2 _. rewrite Hsrc2. split; [exact I|split; [apply rd_set_src|reflexivity]].
    + apply wp_bind. eapply wp_io; [reflexivity| |].
      * intros bom i2 Hr. apply read_exact_ok in Hr. rewrite Hsrc2.
        destruct (bytes_eqb bom [255; 254]); [|destruct (bytes_eqb _ _)].
        -- apply wp_ret. split; [apply rd_set_src|]. split; [apply Hio; lia|]. split; [congruence|split; reflexivity].
        -- apply wp_ret. split; [apply rd_set_src|]. split; [apply Hio; lia|]. split; [congruence|split; reflexivity].
        -- apply wp_fail. split; [exact I|split; [apply rd_set_src|reflexivity]].
      * intros e i2 _. rewrite Hsrc2. split; [exact I|split; [apply rd_set_src|reflexivity]].
    + apply wp_ret. split; [assumption|]. split; [apply Hio; lia|]. split; [congruence|split; reflexivity].
Qed.

Lemma read_utf8_buffered_wp s : src s <> None ->
  wp read_utf8_buffered
     (fun b s' => rd s s' /\ rdm s s' /\ (b = true -> (ssize s' < ssize s)%nat))
     (fun e s' => rd_err e /\ rd s s') (rd_panic s) s.
Proof.
  intros Hs. destruct (src s) as [i|] eqn:Ei; [|congruence]. clear Hs.
  unfold read_utf8_buffered. apply wp_bind. eapply wp_io; [exact Ei| |].
  2:{ intros e i' _. split; [exact I|apply rd_set_src]. }
  intros l i1 Hf. apply fill_buf_retry_ok in Hf. destruct Hf as (Hc & Hz & Hb).
  set (s1 := set_src (Some i1) s).
  assert (Hrd1 : rd s s1) by apply rd_set_src.
  destruct l as [|b l].
  { apply wp_ret. split; [assumption|]. split; [|congruence]. subst s1. constructor.
    - rewrite !meas_eq. unfold ssize. rewrite Ei. cbn. lia.
    - unfold vol, sbytes. rewrite Ei. cbn. lia.
    - unfold blen, sbytes. rewrite Ei. cbn. lia. }
  destruct (from_utf8 (b :: l)) as [cs e] eqn:Hu. pose proof (from_utf8_len _ _ _ Hu) as (Hlen & _ & Hinc).
  assert (Hcs := str_len_ge cs).
  assert (Herr : forall e s', (rd_err e /\ exists x off, s' = pushed x off s1 /\ Forall okc x) -> rd_err e /\ rd s s').
  { intros e0 s' (He0 & x & off & -> & HF). split; [exact He0|]. eapply rd_trans; [exact Hrd1|apply rd_pushed, HF]. }
  destruct e as [|rest|rest]; cbn [end_rest] in Hlen.
  - eapply wp_seq; [apply push_chars_utf8_wp| |auto|contradiction]. cbn beta.
    intros _ s' [-> HF]. apply wp_bind. unfold consume_m. eapply wp_io; [reflexivity| |discriminate].
    intros [] i2 [= <-]. apply wp_ret.
    change (set_src (Some (consume (length (b :: l)) i1)) (pushed cs (offset s1 + str_len cs) s1))
      with (pushed cs (offset s1 + str_len cs) (set_src (Some (consume (length (b :: l)) i1)) s)).
    destruct (consume_size (length (b :: l)) i1) as [C1 C2]; [rewrite Hc; lia|].
    cbn [length] in *.
    edestruct (rd_io_pushed s i (consume (S (length l)) i1) cs (offset s1 + str_len cs) (S (length l))) as (R1 & R2 & R3);
      try exact Ei; try exact HF; try lia. eauto.
  - destruct (Nat.eqb_spec (length (b :: l) - length rest) 0) as [H0|H0].
    + assert (cs = []) as -> by (destruct cs as [|c cs]; [reflexivity|]; pose proof (len_utf8_pos c); cbn [length str_len] in *; lia).
      cbn [push_chars_utf8]. apply wp_bind, wp_ret. apply wp_bind.
      destruct (Hinc rest eq_refl) as (b' & t & [= <- <-] & Hb'); [cbn [length str_len] in *; lia|].
      pose proof (width_lead b Hb') as Hw.
      unfold read_utf8_char_unbuffered. apply wp_bind. eapply wp_io; [reflexivity| |].
      2:{ intros e' i2 _. split; [exact I|]. eapply rd_trans; [exact Hrd1|apply rd_set_src]. }
      intros buf i2 Hr. apply read_exact_ok in Hr. destruct Hr as (Hr1 & Hr2 & Hr3).
      destruct (from_utf8 buf) as [cs' e'] eqn:Hu'. pose proof (from_utf8_len _ _ _ Hu') as (Hlen' & Hne & _).
      assert (Hrd2 : rd s (set_src (Some i2) s1)) by (eapply rd_trans; [exact Hrd1|apply rd_set_src]).
      destruct e'; [|apply wp_bind, wp_gets, wp_fail; split; [exact I|exact Hrd2] ..].
      destruct cs' as [|c cs'].
      { exfalso. apply Hne; [reflexivity| |reflexivity]. intros ->. cbn [length] in Hr1. lia. }
      apply wp_bind, wp_gets, wp_bind. unfold wp, push_char. destruct (allowed_char c) eqn:Ha; [|split; [exact I|exact Hrd2]].
      apply wp_modify, wp_ret.
      match goal with |- rd _ ?x /\ _ => change x with (pushed [c] (offset s + N.of_nat (utf8_char_width b)) (set_src (Some i2) s)) end.
      pose proof (len_utf8_max c). cbn [str_len] in Hlen'.
      edestruct (rd_io_pushed s i i2 [c] (offset s + N.of_nat (utf8_char_width b)) (utf8_char_width b)) as (R1 & R2 & R3);
        try exact Ei; cbn [length str_len] in *; try lia; [repeat constructor; exact Ha|]. eauto.
    + eapply wp_seq; [apply push_chars_utf8_wp| |auto|contradiction]. cbn beta.
      intros _ s' [-> HF]. apply wp_bind. unfold consume_m. eapply wp_io; [reflexivity| |discriminate].
      intros [] i2 [= <-]. apply wp_ret. set (n := (length (b :: l) - length rest)%nat) in *.
      change (set_src (Some (consume n i1)) (pushed cs (offset s1 + str_len cs) s1))
        with (pushed cs (offset s1 + str_len cs) (set_src (Some (consume n i1)) s)).
      destruct (consume_size n i1) as [C1 C2]; [rewrite Hc; lia|].
      edestruct (rd_io_pushed s i (consume n i1) cs (offset s1 + str_len cs) n) as (R1 & R2 & R3);
        try exact Ei; try exact HF; try lia. eauto.
  - eapply wp_seq; [apply push_chars_utf8_wp| |auto|contradiction]. cbn beta.
    intros _ s' [-> HF]. apply wp_bind, wp_gets, wp_fail. apply Herr. split; [exact I|eauto].
Qed.

Lemma read_utf16_buffered_wp be s : src s <> None -> utf16 (enc s) = true ->
  wp (read_utf16_buffered be)
     (fun b s' => rd s s' /\ rdm s s' /\ (b = true -> (ssize s' < ssize s)%nat))
     (fun e s' => rd_err e /\ rd s s') (rd_panic s) s.
Proof.
  intros Hs He. destruct (src s) as [i|] eqn:Ei; [|congruence]. clear Hs.
  unfold read_utf16_buffered. apply wp_bind. eapply wp_io; [exact Ei| |].
  2:{ intros e i' _. split; [exact I|apply rd_set_src]. }
  intros l i1 Hf. apply fill_buf_retry_ok in Hf. destruct Hf as (Hc & Hz & Hb).
  set (s1 := set_src (Some i1) s).
  assert (Hrd1 : rd s s1) by apply rd_set_src.
  destruct l as [|b l].
  { apply wp_ret. split; [assumption|]. split; [|congruence]. subst s1. constructor.
    - rewrite !meas_eq. unfold ssize. rewrite Ei. cbn. lia.
    - unfold vol, sbytes. rewrite Ei. cbn. lia.
    - unfold blen, sbytes. rewrite Ei. cbn. lia. }
  set (cs := decode_utf16_prefix (u16s be (b :: l))).
  assert (Hcs : str_len16 cs <= N.of_nat (length (b :: l))).
  { subst cs. pose proof (decode_utf16_len _ (u16s be (b :: l)) (le_n _)).
    pose proof (u16s_len be _ (b :: l) (le_n _)). lia. }
  pose proof (str_len16_ge cs) as Hge.
  assert (Herr : forall e s', (rd_err e /\ exists x off, s' = pushed x off s1 /\ Forall okc x) -> rd_err e /\ rd s s').
  { intros e0 s' (He0 & x & off & -> & HF). split; [exact He0|]. eapply rd_trans; [exact Hrd1|apply rd_pushed, HF]. }
  eapply wp_seq; [apply push_chars_utf16_wp| |auto|contradiction]. cbn beta.
  intros u s' (-> & -> & HF). rewrite N.add_0_l. destruct (N.eqb_spec (str_len16 cs) 0) as [H0|H0]; cbn [negb].
  - assert (cs = []) as Hnil by (destruct cs as [|c cs']; [reflexivity|cbn [length] in Hge; lia]).
    rewrite Hnil. cbn [str_len16 fold_right]. rewrite N.add_0_r, pushed_nil.
    apply wp_bind, wp_get, wp_bind. destruct (debug_build s1 && negb (is_empty l)) eqn:Hd.
    { apply wp_panics. split; [reflexivity|]. destruct (debug_build s1) eqn:Hd'; [exact Hd'|discriminate]. }
    apply wp_ret. apply wp_bind. unfold read_utf16_char_unbuffered. apply wp_bind. eapply wp_io; [reflexivity| |].
    2:{ intros e' i2 _. split; [exact I|]. eapply rd_trans; [exact Hrd1|apply rd_set_src]. }
    intros b1 i2 Hr. apply read_exact_ok in Hr. destruct Hr as (Hr1 & Hr2 & Hr3).
    assert (Hrd2 : rd s (set_src (Some i2) s1)) by (eapply rd_trans; [exact Hrd1|apply rd_set_src]).
    destruct (is_surrogate (u16_of be b1)) eqn:Hsur.
    + apply wp_bind. eapply wp_io; [reflexivity| |].
      2:{ intros e' i3 _. split; [exact I|]. eapply rd_trans; [exact Hrd1|]. eapply rd_trans; apply rd_set_src. }
      intros b2 i3 Hq. apply read_exact_ok in Hq. destruct Hq as (Hq1 & Hq2 & Hq3).
      apply wp_bind, wp_gets.
      assert (Hrd3 : rd s (set_src (Some i3) (set_src (Some i2) s1))) by (eapply rd_trans; [exact Hrd2|apply rd_set_src]).
      destruct (decode_utf16_pair _ _) as [c|u]; [|apply wp_fail; split; [exact I|exact Hrd3]].
      apply wp_bind. unfold wp, push_char. destruct (allowed_char c) eqn:Ha; [|split; [exact I|exact Hrd3]].
      apply wp_modify, wp_ret.
      match goal with |- rd _ ?x /\ _ => change x with (pushed [c] (offset s + 4) (set_src (Some i3) s)) end.
      edestruct (rd_io_pushed s i i3 [c] (offset s + 4) 4) as (R1 & R2 & R3);
        try exact Ei; try (apply okc1; exact Ha); try congruence; cbn [length] in *; try lia. eauto.
    + apply wp_bind, wp_gets, wp_bind. unfold wp, push_char. destruct (allowed_char _) eqn:Ha; [|split; [exact I|exact Hrd2]].
      apply wp_modify, wp_ret.
      match goal with |- rd _ ?x /\ _ => change x with (pushed [u16_of be b1] (offset s + 2) (set_src (Some i2) s)) end.
      edestruct (rd_io_pushed s i i2 [u16_of be b1] (offset s + 2) 2) as (R1 & R2 & R3);
        try exact Ei; try (apply okc1; exact Ha); try congruence; cbn [length] in *; try lia. eauto.
  - apply wp_bind. unfold consume_m. eapply wp_io; [reflexivity| |discriminate].
    intros [] i2 [= <-]. apply wp_bind, wp_modify, wp_ret.
    set (n := N.to_nat (str_len16 cs)) in *.
    match goal with |- rd _ ?x /\ _ =>
      change x with (pushed cs (offset s + str_len16 cs + str_len16 cs) (set_src (Some (consume n i1)) s)) end.
    destruct (consume_size n i1) as [C1 C2]; [rewrite Hc; lia|].
    edestruct (rd_io_pushed s i (consume n i1) cs (offset s + str_len16 cs + str_len16 cs) n) as (R1 & R2 & R3);
      try exact Ei; try exact HF; try lia; try congruence. eauto.
Qed.

Lemma rd_panic_rd s s' p : rd s s' -> rd_panic s' p -> rd_panic s p.
Proof. intros R [H1 H2]. split; [assumption|]. rewrite <- (frame_dbg s s' (rd_frame _ _ R)). exact H2. Qed.

Lemma read_more_wp s : src s <> None -> enc s <> EncAny ->
  wp read_more (fun b s' => rd s s' /\ rdm s s' /\ (b = true -> (ssize s' < ssize s)%nat))
     (fun e s' => rd_err e /\ rd s s') (rd_panic s) s.
Proof.
  intros Hs He. unfold read_more. apply wp_bind, wp_gets.
  destruct (enc s) eqn:E; [congruence|apply read_utf8_buffered_wp, Hs|..];
    apply read_utf16_buffered_wp; [exact Hs|rewrite E; reflexivity|exact Hs|rewrite E; reflexivity].
Qed.

(** Enough characters are in the buffer, or there are no more. *)
Definition avail (n : nat) (s : sst) : Prop := (n <= length (buffer s))%nat \/ eof s = true.

Lemma rd_set_eof s : rd s (set_eof true s).
Proof. constructor; cbn; auto. exists []. rewrite app_nil_r. auto. Qed.
Lemma rdm_set_eof s : rdm s (set_eof true s).
Proof. constructor; [exact (le_n _)|exact (le_n _)|intros _; exact (N.le_refl _)]. Qed.

Lemma fill_loop_wp len s : src s <> None -> enc s <> EncAny ->
  wp (fill_loop len) (fun _ s' => rd s s' /\ rdm s s' /\ avail len s')
     (fun e s' => rd_err e /\ rd s s') (rd_panic s) s.
Proof.
  intros Hs He. unfold fill_loop, loop.
  apply (wp_loopM (fun _ s' => rd s s' /\ rdm s s') ssize).
  2:{ split; [apply rd_refl|apply rdm_refl]. }
  2:{ rewrite meas_eq. lia. }
  intros _ s1 [R1 M1]. apply wp_bind, wp_get.
  destruct (Nat.ltb_spec (length (buffer s1)) len) as [Hl|Hl].
  - destruct (eof s1) eqn:Heof.
    + apply wp_ret. repeat split; try apply R1; try apply M1. right; exact Heof.
    + eapply wp_seq; [apply read_more_wp| | |].
      * apply R1, Hs.
      * rewrite (rd_enc _ _ R1 He). exact He.
      * cbn beta. intros b s2 (R2 & M2 & Hb). assert (R := rd_trans _ _ _ R1 R2).
        assert (Mm := rdm_trans _ _ _ R2 M1 M2).
        destruct b.
        -- apply wp_ret. auto.
        -- apply wp_bind, wp_modify, wp_ret. assert (R3 := rd_set_eof s2).
           split; [eapply rd_trans; eauto|]. split; [eapply rdm_trans; eauto using rdm_set_eof|].
           right; reflexivity.
      * intros e s2 [He2 R2]. split; [exact He2|eapply rd_trans; eauto].
      * intros p. apply rd_panic_rd, R1.
  - apply wp_ret. repeat split; try apply R1; try apply M1. left; lia.
Qed.

Lemma rd_set_enc s e : enc s = EncAny -> rd s (set_enc e s).
Proof. intros H. constructor; cbn; auto; try congruence. exists []. rewrite app_nil_r. auto. Qed.
Lemma rdm_set_enc s e : enc s = EncAny -> rdm s (set_enc e s).
Proof. intros _. constructor; [exact (le_n _)|exact (le_n _)|intros _; exact (N.le_refl _)]. Qed.

Lemma encoding_eqb_eq a b : encoding_eqb a b = true <-> a = b.
Proof. destruct a, b; cbn; split; congruence. Qed.

(** Characters are only put in the buffer once the encoding is known. *)
Definition rd2 (s s' : sst) : Prop := rd s s' /\ (enc s' = EncAny -> buffer s' = buffer s).

Lemma update_buffer_wp len s : src s <> None ->
  wp (update_buffer len) (fun _ s' => rd2 s s' /\ rdm s s' /\ avail len s')
     (fun e s' => rd_err e /\ rd2 s s') (rd_panic s) s.
Proof.
  intros Hs. unfold update_buffer. apply wp_bind, wp_get.
  destruct (src s) as [i|] eqn:Ei; [|congruence].
  destruct (Nat.leb_spec len (length (buffer s))) as [Hl|Hl].
  { apply wp_ret. split; [split; [apply rd_refl|reflexivity]|]. split; [apply rdm_refl|]. left; exact Hl. }
  apply wp_bind. eapply wp_conseq with
    (Q := fun done s' => rd s s' /\ buffer s' = buffer s /\ rdm s s' /\
           if done : bool then eof s' = true else enc s' <> EncAny)
    (E := fun e s' => rd_err e /\ rd s s' /\ buffer s' = buffer s) (P := fun _ => False); [| | |contradiction].
  - destruct (encoding_eqb (enc s) EncAny) eqn:He.
    + apply encoding_eqb_eq in He. eapply wp_seq; [apply determine_encoding_wp; congruence| |auto|contradiction].
      cbn beta. intros [e|] s1 (R1 & M1 & Ho & He1 & Hb).
      * apply wp_bind, wp_modify, wp_ret. assert (enc s1 = EncAny) by congruence.
        split; [eapply rd_trans; [exact R1|apply rd_set_enc; assumption]|].
        split; [exact Hb|]. split; [|cbn; congruence].
        eapply rdm_trans; [apply rd_set_enc; assumption|exact M1|apply rdm_set_enc; assumption].
      * apply wp_bind, wp_modify, wp_ret. split; [eapply rd_trans; [exact R1|apply rd_set_eof]|].
        split; [exact Hb|].
        split; [eapply rdm_trans; eauto using rd_set_eof, rdm_set_eof|reflexivity].
    + apply wp_ret. split; [apply rd_refl|]. split; [reflexivity|]. split; [apply rdm_refl|]. intros H.
      rewrite H in He. discriminate.
  - cbn beta. intros done s1 (R1 & Hb & M1 & Hd). destruct done.
    + apply wp_ret. split; [split; [exact R1|auto]|]. split; [exact M1|]. right; exact Hd.
    + eapply wp_seq; [apply fill_loop_wp| | |].
      * apply R1. congruence.
      * exact Hd.
      * cbn beta. intros b s2 (R2 & M2 & Ha).
        assert (R : rd2 s s2).
        { split; [eapply rd_trans; eauto|]. rewrite (rd_enc _ _ R2 Hd). congruence. }
        assert (Mm := rdm_trans _ _ _ R2 M1 M2).
        destruct b; [apply wp_ret; auto|]. apply wp_bind, wp_gets.
        destruct (_ <=? _); [apply wp_fail; split; [exact I|exact R]|apply wp_ret; auto].
      * intros e s2 [He2 R2]. split; [exact He2|]. split; [eapply rd_trans; eauto|].
        rewrite (rd_enc _ _ R2 Hd). congruence.
      * intros p. apply rd_panic_rd, R1.
  - cbn beta. intros e s' (H1 & H2 & H3). split; [exact H1|]. split; auto.
Qed.

Lemma cache_wp len s : src s <> None ->
  wp (cache len) (fun _ s' => rd2 s s' /\ rdm s s' /\ avail len s')
     (fun e s' => rd_err e /\ rd2 s s') (rd_panic s) s.
Proof.
  intros Hs. unfold cache. apply wp_bind, wp_get.
  destruct (Nat.leb_spec len (length (buffer s))) as [Hl|Hl].
  - apply wp_ret. split; [split; [apply rd_refl|reflexivity]|]. split; [apply rdm_refl|]. left; exact Hl.
  - apply update_buffer_wp, Hs.
Qed.

(** Once the end of the input has been seen, [cache] does nothing. *)
Lemma cache_noop len s : src s <> None -> avail len s -> (buffer s <> [] -> enc s <> EncAny) ->
  buffer s <> [] -> cache len s = (Ok tt, s).
Proof.
  intros Hs Ha He Hb. unfold cache, bind, get.
  destruct (Nat.leb_spec len (length (buffer s))) as [Hl|Hl]; [reflexivity|].
  destruct Ha as [Ha|Ha]; [lia|]. unfold update_buffer, bind, get.
  destruct (src s) as [i|] eqn:Ei; [|congruence].
  destruct (Nat.leb_spec len (length (buffer s))) as [Hl'|_]; [lia|].
  destruct (encoding_eqb (enc s) EncAny) eqn:E.
  { apply encoding_eqb_eq in E. exfalso. apply He; auto. }
  unfold ret, fill_loop, loop. cbn [loopM]. unfold bind, get.
  destruct (Nat.ltb_spec (length (buffer s)) len) as [_|Hl']; [|lia].
  rewrite Ha. reflexivity.
Qed.
