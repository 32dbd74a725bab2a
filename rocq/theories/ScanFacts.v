(** ScanFacts.v -- what the scan_ functions of the scanner do to the state, for every input. *)
From Coq Require Import ZifyBool ZifyNat ZifyN.
From Verif Require Import Base Utf Chars State Reader Scanner Wp ReaderFacts Spec_Tokens.

(** ** Marks *)
Definition lex_lt (a b : mark) : Prop := m_line a < m_line b \/ m_line a = m_line b /\ m_col a < m_col b.
Definition mark_le (a b : mark) : Prop :=
  m_index a <= m_index b /\ (m_line a < m_line b \/ m_line a = m_line b /\ m_col a <= m_col b).
Definition mark_lt (a b : mark) : Prop := m_index a < m_index b /\ lex_lt a b.

Lemma mark_le_refl a : mark_le a a.
Proof. unfold mark_le. lia. Qed.
Lemma mark_le_trans a b c : mark_le a b -> mark_le b c -> mark_le a c.
Proof. unfold mark_le. lia. Qed.
Lemma mark_lt_le a b : mark_lt a b -> mark_le a b.
Proof. unfold mark_le, mark_lt, lex_lt. lia. Qed.
Lemma mark_lt_le_trans a b c : mark_lt a b -> mark_le b c -> mark_lt a c.
Proof. unfold mark_le, mark_lt, lex_lt. lia. Qed.
Lemma mark_le_lt_trans a b c : mark_le a b -> mark_lt b c -> mark_lt a c.
Proof. unfold mark_le, mark_lt, lex_lt. lia. Qed.
Lemma mark_lt_trans a b c : mark_lt a b -> mark_lt b c -> mark_lt a c.
Proof. unfold mark_lt, lex_lt. lia. Qed.

(** ** Progress relations *)

(** Characters are in the buffer only once the encoding is known. *)
Definition encok (s : sst) : Prop := buffer s <> [] -> enc s <> EncAny.

(** Holds after any call, failed or not. *)
Record advE (s s' : sst) : Prop := {
  ae_frame : frame s' = frame s;
  ae_src : src s <> None -> src s' <> None;
  ae_pos : pos s' = pos s /\ (exists x, buffer s' = buffer s ++ x) \/ mark_lt (pos s) (pos s');
  ae_okc : Forall okc (buffer s) -> Forall okc (buffer s');
  ae_enc : enc s <> EncAny -> enc s' = enc s;
  ae_eof : eof s = true -> eof s' = true;
  ae_encok : encok s -> encok s';
  ae_idx : utf16 (enc s') = false -> m_index (pos s') <= m_index (pos s) + blen s }.
(** Holds after a successful call. *)
Record advM (s s' : sst) : Prop := {
  am_meas : (meas s' <= meas s)%nat;
  am_vol : (vol s' <= vol s)%nat;
  am_col : m_col (pos s') + N.of_nat (vol s') <= m_col (pos s) + N.of_nat (vol s);
  am_idx : utf16 (enc s') = false -> m_index (pos s') + blen s' <= m_index (pos s) + blen s }.
Definition adv (s s' : sst) : Prop := advE s s' /\ advM s s'.
Definition strict (s s' : sst) : Prop :=
  (meas s' < meas s)%nat /\ (vol s' < vol s)%nat /\ mark_lt (pos s) (pos s').
Definition adv1 (s s' : sst) : Prop := adv s s' /\ strict s s'.

Lemma utf16_mono s s' : (enc s <> EncAny -> enc s' = enc s) -> utf16 (enc s') = false -> utf16 (enc s) = false.
Proof.
  intros H H'. destruct (enc s) eqn:E; try reflexivity; rewrite H in H'; cbn in H'; congruence.
Qed.

Lemma advE_mark_le s s' : advE s s' -> mark_le (pos s) (pos s').
Proof. intros H. destruct (ae_pos _ _ H) as [[-> _]|H']; [apply mark_le_refl|apply mark_lt_le, H']. Qed.
Lemma adv_mark_le s s' : adv s s' -> mark_le (pos s) (pos s').
Proof. intros [H _]. apply advE_mark_le, H. Qed.

Lemma advE_trans a b c : adv a b -> advE b c -> advE a c.
Proof.
  intros [A [M1 M2 M3 M4]] B. constructor.
  - rewrite (ae_frame _ _ B). apply A.
  - intros H. apply B, A, H.
  - destruct (ae_pos _ _ A) as [[Ha [x Hx]]|Ha], (ae_pos _ _ B) as [[Hb [y Hy]]|Hb].
    + left. split; [congruence|]. exists (x ++ y). rewrite Hy, Hx, app_assoc. reflexivity.
    + right. rewrite <- Ha. exact Hb.
    + right. rewrite Hb. exact Ha.
    + right. eapply mark_lt_trans; eassumption.
  - intros H. apply B, A, H.
  - intros H. rewrite (ae_enc _ _ B); [apply A, H|]. rewrite (ae_enc _ _ A H). exact H.
  - intros H. apply B, A, H.
  - intros H. apply (ae_encok _ _ B), (ae_encok _ _ A), H.
  - intros H. pose proof (ae_idx _ _ B H). pose proof (M4 (utf16_mono _ _ (ae_enc _ _ B) H)). lia.
Qed.
Lemma advM_trans a b c : advE b c -> advM a b -> advM b c -> advM a c.
Proof.
  intros E [] []. constructor; try lia. intros H.
  specialize (am_idx1 H). specialize (am_idx0 (utf16_mono _ _ (ae_enc _ _ E) H)). lia.
Qed.
Lemma adv_trans a b c : adv a b -> adv b c -> adv a c.
Proof. intros A B. split; [eapply advE_trans; [exact A|apply B]|eapply advM_trans; [apply B|apply A|apply B]]. Qed.
Lemma adv_refl s : adv s s.
Proof.
  split; constructor; auto; try lia; [left; split; [reflexivity|exists []; rewrite app_nil_r; reflexivity]].
Qed.
Lemma advE_refl s : advE s s.
Proof. apply adv_refl. Qed.
Lemma strict_l a b c : strict a b -> adv b c -> strict a c.
Proof.
  intros (H1 & H2 & H3) B. pose proof (adv_mark_le _ _ B). destruct B as [B1 []].
  repeat split; try lia; eapply mark_lt_le_trans; eassumption.
Qed.
Lemma strict_r a b c : adv a b -> strict b c -> strict a c.
Proof.
  intros A (H1 & H2 & H3). pose proof (adv_mark_le _ _ A). destruct A as [A1 []].
  repeat split; try lia; eapply mark_le_lt_trans; eassumption.
Qed.

Lemma rd_advE s s' : rd2 s s' -> advE s s'.
Proof.
  intros [R R']. destruct (rd_buf _ _ R) as (x & Hx & HF). constructor; try apply R.
  - left. split; [apply R|]. eauto.
  - rewrite Hx. intros H. apply Forall_app. auto.
  - intros H Hb He. specialize (R' He). rewrite R' in Hb. apply (H Hb).
    destruct (enc s) eqn:E; [reflexivity|..]; rewrite (rd_enc _ _ R) in He; congruence.
  - rewrite (rd_pos _ _ R). lia.
Qed.
Lemma rd_adv s s' : rd2 s s' -> rdm s s' -> adv s s'.
Proof.
  intros R Hm. split; [apply rd_advE, R|]. destruct R as [R _]. constructor; try apply Hm.
  - rewrite (rd_pos _ _ R). pose proof (rdm_vol _ _ Hm). lia.
  - rewrite (rd_pos _ _ R). intros H. pose proof (rdm_blen _ _ Hm H). lia.
Qed.
Lemma adv_src s s' : src s <> None -> adv s s' -> src s' <> None.
Proof. intros H [A _]. apply A, H. Qed.
Lemma adv_dbg s s' : adv s s' -> debug_build s' = debug_build s.
Proof. intros [A _]. apply frame_dbg, A. Qed.

(** The panics that the scan_ functions can run into. *)
Definition spanic (dbg : bool) (p : panic) : Prop :=
  p = PTagTodo \/ p = PEscapeUnwrap \/ p = PReadLineBreak \/ p = PDebugAssert /\ dbg = true.

(** Errors point into the text already read. *)
Definition err_in (e : error) (s : sst) : Prop :=
  match e with
  | EScanner _ cm _ pm => mark_le cm (pos s) /\ mark_le pm (pos s)
  | EReader _ _ _ | EIo _ => True
  | _ => False
  end.

(** The specification triple of a scan_ function started in [s]. *)
Definition spec {A} (m : M sst A) (s : sst) (Q : A -> sst -> Prop) : Prop :=
  wp m (fun a s' => adv s s' /\ Q a s') (fun e s' => advE s s' /\ err_in e s') (spanic (debug_build s)) s.
Definition Qt {A} : A -> sst -> Prop := fun _ _ => True.

(** Sequencing: [s0] is the state in which the enclosing function started. *)
Lemma spec_seq {A B} (m : M sst A) (k : A -> M sst B) s0 s Q1 Q :
  adv s0 s -> spec m s Q1 ->
  (forall a s', adv s s' -> adv s0 s' -> Q1 a s' ->
     wp (k a) Q (fun e s' => advE s0 s' /\ err_in e s') (spanic (debug_build s0)) s') ->
  wp (bind m k) Q (fun e s' => advE s0 s' /\ err_in e s') (spanic (debug_build s0)) s.
Proof.
  intros A0 H1 H2. eapply wp_seq; [exact H1| | |]; cbn beta.
  - intros a s' [A1 HQ]. apply H2; auto. eapply adv_trans; eassumption.
  - intros e s' [A1 HE]. split; [eapply advE_trans; eassumption|exact HE].
  - intros p. rewrite (adv_dbg _ _ A0). auto.
Qed.
Lemma spec_last {A} (m : M sst A) s0 s Q1 (Q : A -> sst -> Prop) :
  adv s0 s -> spec m s Q1 ->
  (forall a s', adv s s' -> adv s0 s' -> Q1 a s' -> Q a s') ->
  wp m Q (fun e s' => advE s0 s' /\ err_in e s') (spanic (debug_build s0)) s.
Proof.
  intros A0 H1 H2. eapply wp_conseq; [exact H1| | |]; cbn beta.
  - intros a s' [A1 HQ]. apply H2; auto. eapply adv_trans; eassumption.
  - intros e s' [A1 HE]. split; [eapply advE_trans; eassumption|exact HE].
  - intros p. rewrite (adv_dbg _ _ A0). auto.
Qed.
Lemma spec_weaken {A} (m : M sst A) s (Q Q' : A -> sst -> Prop) :
  spec m s Q -> (forall a s', adv s s' -> Q a s' -> Q' a s') -> spec m s Q'.
Proof. intros H HQ. eapply wp_conseq; [exact H| |auto|auto]. cbn. intros a s' [? ?]. auto. Qed.

(** Loops *)
Lemma spec_loop {A B} (body : A -> M sst (A + B)) (a : A) s0 s (I : A -> sst -> Prop) (Q : B -> sst -> Prop) :
  adv s0 s -> I a s ->
  (forall a s, adv s0 s -> I a s ->
     wp (body a) (fun r s' => match r with
                              | inl a' => adv s0 s' /\ I a' s' /\ (meas s' < meas s)%nat
                              | inr b => Q b s'
                              end)
        (fun e s' => advE s0 s' /\ err_in e s') (spanic (debug_build s0)) s) ->
  wp (loop body a) Q (fun e s' => advE s0 s' /\ err_in e s') (spanic (debug_build s0)) s.
Proof.
  intros A0 HI Hb. unfold loop.
  apply (wp_loopM (fun a s => adv s0 s /\ I a s) meas); [|auto|lia].
  intros a1 s1 [A1 I1]. eapply wp_conseq; [apply Hb; assumption| |auto|auto].
  intros [a'|b] s'; cbn beta iota; tauto.
Qed.

(** ** Primitives *)

Lemma cache_spec n s : src s <> None -> spec (cache n) s (fun _ s' => avail n s' /\ rd s s').
Proof.
  intros Hs. eapply wp_conseq; [apply (cache_wp n s Hs)| | |]; cbn beta.
  - intros _ s' (R & Hm & Ha). split; [apply rd_adv; assumption|]. split; [exact Ha|apply R].
  - intros e s' [He R]. split; [apply rd_advE, R|]. destruct e; auto; contradiction.
  - intros p [-> H]. right; right; right; auto.
Qed.

(** Consuming the character at the front of the buffer. *)
Lemma consume_front s c b m : buffer s = c :: b -> m = advance (len_utf8 c) (pos s) ->
  adv1 s (set_pos m (set_buffer b s)).
Proof.
  intros Hb ->. pose proof (len_utf8_pos c) as Hc.
  assert (Hlt : mark_lt (pos s) (advance (len_utf8 c) (pos s))).
  { unfold mark_lt, lex_lt, advance. cbn. lia. }
  split; [split|].
  - constructor; cbn; auto.
    + rewrite Hb. intros H. inversion H; assumption.
    + unfold encok. cbn. rewrite Hb. intros H _. apply H. discriminate.
    + unfold blen, advance. rewrite Hb. cbn. lia.
  - constructor; rewrite ?meas_eq; unfold vol, blen, ssize, sbytes, advance; cbn; rewrite Hb; cbn; lia.
  - split; [|split]; [rewrite !meas_eq|unfold vol|exact Hlt]; unfold ssize, sbytes; cbn; rewrite Hb; cbn; lia.
Qed.

Lemma consume_line s n b m x : buffer s = x ++ b -> (1 <= length x)%nat -> n = str_len x ->
  m = next_line n (pos s) -> adv1 s (set_pos m (set_buffer b s)).
Proof.
  intros Hb Hx -> ->. pose proof (str_len_ge x) as Hc.
  assert (Hlt : mark_lt (pos s) (next_line (str_len x) (pos s))).
  { unfold mark_lt, lex_lt, next_line. cbn. lia. }
  split; [split|].
  - constructor; cbn; auto.
    + rewrite Hb. intros H. apply Forall_app in H. apply H.
    + unfold encok. cbn. rewrite Hb. intros H Hn. apply H. destruct x; [cbn in Hx; lia|discriminate].
    + unfold blen, next_line. rewrite Hb, str_len_app. cbn. lia.
  - constructor; rewrite ?meas_eq; unfold vol, blen, ssize, sbytes, next_line; cbn; rewrite Hb, ?app_length, ?str_len_app; cbn; lia.
  - split; [|split]; [rewrite !meas_eq|unfold vol|exact Hlt]; unfold ssize, sbytes; cbn; rewrite Hb, app_length; cbn; lia.
Qed.

Lemma bget0 s : bget 0 s <> None -> exists c b, buffer s = c :: b.
Proof. unfold bget. destruct (buffer s); cbn; [congruence|eauto]. Qed.
Lemma bget_tl s s' i : buffer s' = tl (buffer s) -> bget i s' = bget (S i) s.
Proof. unfold bget. intros ->. destruct (buffer s); [destruct i|]; reflexivity. Qed.
Lemma bget_len s i : bget i s <> None <-> (i < length (buffer s))%nat.
Proof. unfold bget. apply nth_error_Some. Qed.

Lemma skip_char_spec s : bget 0 s <> None ->
  spec skip_char s (fun _ s' => strict s s' /\ buffer s' = tl (buffer s) /\ simple_key_allowed s' = simple_key_allowed s
                                /\ eof s' = eof s).
Proof.
  intros H. destruct (bget0 _ H) as (c & b & Hb). unfold spec, wp, skip_char. rewrite Hb.
  destruct (consume_front s c b _ Hb eq_refl) as [A B]. split; [exact A|]. split; [exact B|]. auto.
Qed.
Lemma read_char_spec str s : bget 0 s <> None ->
  spec (read_char str) s (fun r s' => strict s s' /\ buffer s' = tl (buffer s) /\ eof s' = eof s /\
                            exists c, bget 0 s = Some c /\ r = str ++ [c]).
Proof.
  intros H. destruct (bget0 _ H) as (c & b & Hb). unfold spec, wp, read_char. rewrite Hb.
  destruct (consume_front s c b _ Hb eq_refl) as [A B]. split; [exact A|]. split; [exact B|]. split; [reflexivity|]. split; [reflexivity|].
  exists c. unfold bget. rewrite Hb. auto.
Qed.
Lemma skip_chars_spec n : forall s, (n <= length (buffer s))%nat ->
  spec (skip_chars n) s (fun _ s' => ((0 < n)%nat -> strict s s') /\ buffer s' = skipn n (buffer s)
                                     /\ simple_key_allowed s' = simple_key_allowed s).
Proof.
  induction n as [|n IH]; intros s Hn; cbn [skip_chars].
  - apply wp_ret. split; [apply adv_refl|]. split; [lia|split; reflexivity].
  - assert (H0 : bget 0 s <> None) by (apply bget_len; lia).
    eapply spec_seq; [apply adv_refl|apply skip_char_spec, H0|]. cbn beta.
    intros _ s1 A1 _ (S1 & B1 & K1 & _).
    assert (Hn1 : (n <= length (buffer s1))%nat) by (rewrite B1; destruct (buffer s); cbn in *; lia).
    eapply spec_last; [exact A1|apply IH, Hn1|]. cbn beta. intros _ s2 A2 A3 (S2 & B2 & K2).
    split; [exact A3|]. split; [|split].
    + intros _. eapply strict_l; eassumption.
    + rewrite B2, B1. destruct (buffer s); [|reflexivity]. cbn. apply skipn_nil.
    + congruence.
Qed.

Lemma skip_line_break_spec s :
  spec skip_line_break s (fun _ s' => (is_break (bget 0 s) = true -> strict s s')
                                     /\ simple_key_allowed s' = simple_key_allowed s).
Proof.
  unfold spec, wp, skip_line_break, bget. destruct (buffer s) as [|c b] eqn:Hb.
  - split; [apply adv_refl|]. cbn. split; [discriminate|reflexivity].
  - change (nth_error (c :: b) 0) with (Some c). cbn [is_break]. destruct ((c =? 13) && chk 10 (nth_error b 0)) eqn:H1.
    + destruct b as [|d b]; [cbn in H1; lia|]. cbn [nth_error chk] in H1.
      assert (c = 13 /\ d = 10) as [-> ->] by lia.
      destruct (consume_line s 2 b (next_line 2 (pos s)) [13; 10]) as [A B]; [exact Hb|cbn; lia|reflexivity|reflexivity|].
      split; [exact A|]. split; auto.
    + destruct (is_break_c c) eqn:H2.
      * destruct (consume_line s (len_utf8 c) b (next_line (len_utf8 c) (pos s)) [c]) as [A B]; [exact Hb|cbn; lia|cbn [str_len]; lia|reflexivity|].
        split; [exact A|]. split; auto.
      * split; [apply adv_refl|]. split; [discriminate|reflexivity].
Qed.
Lemma read_line_break_spec str s : 
  spec (read_line_break str) s (fun r s' => (is_break (bget 0 s) = true -> strict s s')
        /\ (exists x, r = str ++ x /\ Forall (fun c => is_break_c c = true) x)).
Proof.
  unfold spec, wp, read_line_break, bget. destruct (buffer s) as [|c b] eqn:Hb.
  - right; right; left; reflexivity.
  - change (nth_error (c :: b) 0) with (Some c). cbn [is_break]. destruct ((c =? 13) && chk 10 (nth_error b 0)) eqn:H1.
    + destruct b as [|d b]; [cbn in H1; lia|]. cbn [nth_error chk] in H1.
      assert (c = 13 /\ d = 10) as [-> ->] by lia.
      destruct (consume_line s 2 b (next_line 2 (pos s)) [13; 10]) as [A B]; [exact Hb|cbn; lia|reflexivity|reflexivity|].
      split; [exact A|]. split; [auto|]. exists [10]. split; [reflexivity|repeat constructor].
    + destruct (is_break_c c) eqn:H2.
      * destruct (consume_line s (len_utf8 c) b (next_line (len_utf8 c) (pos s)) [c]) as [A B]; [exact Hb|cbn; lia|cbn [str_len]; lia|reflexivity|].
        split; [exact A|]. split; [auto|]. eexists. split; [reflexivity|].
        constructor; [|constructor]. destruct (len_utf8 c =? 3); [exact H2|reflexivity].
      * split; [apply adv_refl|]. split; [discriminate|]. exists []. rewrite app_nil_r. auto.
Qed.

Lemma scan_error_spec {A} ctx cm pb s Q : mark_le cm (pos s) -> spec (@scan_error A ctx cm pb) s Q.
Proof.
  intros H. unfold scan_error. apply wp_bind, wp_gets, wp_fail. split; [apply advE_refl|].
  cbn. split; [exact H|apply mark_le_refl].
Qed.

(** Field [simple_key_allowed] may be changed freely. *)
Lemma adv_ska s v : adv s (set_simple_key_allowed v s).
Proof.
  split.
  - constructor; cbn; auto; [|intros _; apply N.le_add_r].
    left. split; [reflexivity|]. exists []. rewrite app_nil_r. reflexivity.
  - constructor; [exact (le_n _)|exact (le_n _)|exact (N.le_refl _)|intros _; exact (N.le_refl _)].
Qed.

(** ** Tactics *)

Lemma le_pos m s0 s : mark_le m (pos s0) -> adv s0 s -> mark_le m (pos s).
Proof. intros H A. eapply mark_le_trans; [exact H|apply adv_mark_le, A]. Qed.

(** [src s <> None] for the current state. *)
Ltac src_ok := match goal with
  | |- src ?s <> None => first [assumption |
      match goal with A : adv ?a s |- _ => apply (adv_src a s); [|exact A]; assumption end |
      match goal with A : adv ?a s, B : adv ?b ?a |- _ => apply (adv_src a s); [|exact A]; apply (adv_src b a); [|exact B]; assumption end ]
  end.

Ltac bsome := (* bget i s <> None from boolean hypotheses *)
  match goal with
  | |- bget ?i ?s <> None =>
      let H := fresh in intros H; repeat match goal with
      | X : context [bget i s] |- _ => tryif constr_eq X H then fail else (rewrite H in X; cbn in X)
      end; try congruence; try lia; try contradiction
  end.

Ltac mle := solve [assumption | apply mark_le_refl | apply adv_mark_le; assumption
  | match goal with A : adv ?a ?s |- mark_le _ (pos ?s) =>
      apply (le_pos _ a s); [|exact A]; first [assumption | apply adv_mark_le; assumption] end
  | match goal with A : adv ?a ?s, B : adv ?b ?a |- mark_le _ (pos ?s) =>
      apply (le_pos _ a s); [|exact A]; apply (le_pos _ b a); [|exact B]; first [assumption | apply mark_le_refl | apply adv_mark_le; assumption] end ].
Ltac side := first [ assumption | src_ok | solve [bsome] | mle | idtac ].

(** Call of a function with a [spec] lemma. *)
Ltac call L :=
  first [ eapply spec_seq; [eassumption | eapply L; side |]
        | eapply spec_last; [eassumption | eapply L; side |] ]; cbn beta.

Ltac err := first
  [ eapply spec_seq with (Q1 := fun _ _ => False); [eassumption | apply scan_error_spec; side | intros ? ? ? ? []]
  | eapply spec_last with (Q1 := fun _ _ => False); [eassumption | apply scan_error_spec; side | intros ? ? ? ? []] ].
Ltac base s := assert (A0 := adv_refl s); unfold spec.

Lemma skip_while_spec cond s :
  (forall s, cond s = true -> bget 0 s <> None) -> src s <> None ->
  spec (skip_while cond) s (fun _ s' => cond s' = false).
Proof.
  intros Hc Hs. unfold skip_while.
  eapply spec_loop with (I := fun _ _ => True); [apply adv_refl|exact I|].
  intros _ s1 A1 _. apply wp_bind, wp_get. destruct (cond s1) eqn:E.
  - pose proof (Hc _ E) as Hn. call skip_char_spec. intros _ s2 A2 A3 (S2 & _). call cache_spec. intros _ s3 A4 A5 _.
    apply wp_ret. split; [assumption|]. split; [exact I|]. apply (strict_l _ _ _ S2 A4).
  - apply wp_ret. auto.
Qed.

Lemma read_while_spec cond (P : char -> Prop) str s :
  (forall s, cond s = true -> exists c, bget 0 s = Some c /\ P c) -> src s <> None ->
  spec (read_while cond str) s
    (fun r s' => cond s' = false /\ exists x, r = str ++ x /\ Forall P x
                 /\ (s' = s /\ x = [] \/ strict s s')).
Proof.
  intros Hc Hs. unfold read_while.
  eapply spec_loop with (I := fun r s1 => exists x, r = str ++ x /\ Forall P x /\ (s1 = s /\ x = [] \/ strict s s1)).
  - apply adv_refl.
  - exists []. rewrite app_nil_r. auto.
  - intros r s1 A1 (x & -> & Hx & Hp). apply wp_bind, wp_get. destruct (cond s1) eqn:E.
    + destruct (Hc _ E) as (c & Hc1 & HPc).
      call read_char_spec. intros r s2 A2 A3 (S2 & _ & _ & c' & Hc' & ->). call cache_spec. intros _ s3 A4 A5 _.
      apply wp_ret. split; [assumption|]. split; [|apply (strict_l _ _ _ S2 A4)].
      exists (x ++ [c']). rewrite app_assoc. split; [reflexivity|].
      split; [apply Forall_app; split; [assumption|constructor; [congruence|constructor]]|].
      right. eapply strict_r; [exact A1|]. eapply strict_l; eassumption.
    + apply wp_ret. split; [assumption|]. split; [assumption|]. exists x. auto.
Qed.

(** Conditions of the loops: they hold only if there is a next character. *)
Lemma chk_some c s i : chk c (bget i s) = true -> bget i s <> None.
Proof. destruct (bget i s); cbn; congruence. Qed.
Lemma blank_some s i : is_blank (bget i s) = true -> bget i s <> None.
Proof. destruct (bget i s); cbn; congruence. Qed.
Lemma breakz_some s i : negb (is_breakz (bget i s)) = true -> bget i s <> None.
Proof. destruct (bget i s); cbn; congruence. Qed.
Lemma alpha_some s : is_alpha (bget 0 s) = true -> exists c, bget 0 s = Some c /\ is_alpha_c c = true.
Proof. destruct (bget 0 s); cbn; [eauto|congruence]. Qed.

Ltac advs := solve [ eassumption | apply adv_refl | eapply adv_trans; [eassumption|advs] ].
Ltac loopcond := solve [ intros ? ?; bsome | intros ? ?; apply breakz_some; assumption
                       | intros ? ?; apply blank_some; assumption ].

Lemma when_spec b m s Q1 : (b = true -> spec m s Q1) ->
  spec (when b m) s (fun a s' => b = true /\ Q1 a s' \/ b = false /\ s' = s).
Proof.
  intros H. unfold when. destruct b.
  - eapply spec_weaken; [apply H; reflexivity|]. auto.
  - apply wp_ret. split; [apply adv_refl|auto].
Qed.

(** [modify] of the field [simple_key_allowed] only. *)
Lemma ska_spec f s : (forall s, exists v, f s = set_simple_key_allowed v s) ->
  spec (modify f) s (fun _ s' => s' = f s).
Proof. intros H. apply wp_modify. destruct (H s) as [v Hv]. rewrite Hv. split; [apply adv_ska|reflexivity]. Qed.

Ltac pr := cbn beta iota; match goal with |- wp (bind get _) _ _ _ _ => apply wp_bind, wp_get
           | |- wp (bind (gets _) _) _ _ _ _ => apply wp_bind, wp_gets
           | |- wp (bind (ret _) _) _ _ _ _ => apply wp_bind, wp_ret
           | |- wp (ret _) _ _ _ _ => apply wp_ret end.

Lemma scan_to_next_token_spec s : src s <> None -> spec scan_to_next_token s Qt.
Proof.
  intros Hs. unfold scan_to_next_token.
  eapply spec_loop with (I := fun _ _ => True); [apply adv_refl|exact I|].
  intros _ s1 A1 _. call cache_spec. intros _ s2 B2 A2 _. pr.
  call when_spec. { intros E. apply (skip_char_spec s2). bsome. } intros _ s3 B3 A3 _.
  call cache_spec. intros _ s4 B4 A4 _.
  call skip_while_spec. { loopcond. } intros _ s5 B5 A5 _. pr.
  call when_spec. { intros E. apply (skip_while_spec _ s5); [loopcond|src_ok]. } intros _ s6 B6 A6 _. pr.
  destruct (is_break (bget 0 s6)) eqn:E; cbn [negb].
  - call cache_spec. intros _ s7 B7 A7 [_ R]. call skip_line_break_spec.
    intros _ s8 B8 A8 (S8 & _).
    call ska_spec. { intros s'. destruct (flow_level s' =? 0); [eauto|]. exists (simple_key_allowed s'). destruct s'; reflexivity. }
    intros _ s9 B9 A9 _. pr. split; [assumption|]. split; [exact I|].
    assert (S : strict s7 s8).
    { apply S8. destruct (rd_buf _ _ R) as (x & Hx & _). unfold bget in *. rewrite Hx.
      destruct (buffer s6); [discriminate|exact E]. }
    apply (strict_l s1 s8 s9); [|assumption]. apply (strict_r s1 s7 s8); [|assumption].
    advs.
  - pr. split; [assumption|exact I].
Qed.

Lemma alpha_name c : is_alpha_c c = true -> name_char c.
Proof. unfold is_alpha_c, in_range, name_char. lia. Qed.
Lemma alpha_some' s : is_alpha (bget 0 s) = true -> exists c, bget 0 s = Some c /\ name_char c.
Proof. intros H. destruct (alpha_some s H) as (c & H1 & H2). eauto using alpha_name. Qed.

Lemma scan_directive_name_spec sm s : src s <> None -> mark_le sm (pos s) ->
  spec (scan_directive_name sm) s Qt.
Proof.
  intros Hs Hm. unfold scan_directive_name. base s.
  call cache_spec. intros _ s1 B1 A1 _.
  call read_while_spec. { apply alpha_some'. } intros x s2 B2 A2 _. pr.
  destruct (is_empty x); [err|]. destruct (negb _); [err|]. pr. split; [assumption|exact I].
Qed.

Lemma scan_version_directive_number_spec sm s : src s <> None -> mark_le sm (pos s) ->
  spec (scan_version_directive_number sm) s (fun z _ => (0 <= z <= 999999999)%Z).
Proof.
  intros Hs Hm. unfold scan_version_directive_number. base s.
  call cache_spec. intros _ s1 B1 A1 _. apply wp_bind.
  eapply spec_loop with (I := fun '(v, l) _ => v < 10 ^ l /\ l <= 9); [eassumption|cbn; lia|].
  intros [v l] s2 A2 [Hv Hl]. pr.
  destruct (is_digit (bget 0 s2)) eqn:E.
  - destruct (N.ltb_spec 9 (l + 1)); [err|].
    unfold is_digit, as_digit in *. destruct (bget 0 s2) as [c|] eqn:Hc; [|discriminate]. rewrite E.
    call skip_char_spec. intros _ s3 B3 A3 (S3 & _). call cache_spec. intros _ s4 B4 A4 _. pr.
    split; [assumption|]. split; [|apply (strict_l _ _ _ S3 B4)].
    split; [|lia]. rewrite N.pow_add_r. unfold is_digit_c, in_range in E. lia.
  - pr. destruct (l =? 0) eqn:E0; [err|]. pr. split; [assumption|].
    assert (10 ^ l <= 10 ^ 9) by (apply N.pow_le_mono_r; lia). change (10 ^ 9) with 1000000000 in *. lia.
Qed.

Lemma scan_version_directive_value_spec sm s : src s <> None -> mark_le sm (pos s) ->
  spec (scan_version_directive_value sm) s
    (fun '(a, b) _ => (0 <= a <= 999999999)%Z /\ (0 <= b <= 999999999)%Z).
Proof.
  intros Hs Hm. unfold scan_version_directive_value. base s.
  call cache_spec. intros _ s1 B1 A1 _. call skip_while_spec. { loopcond. } intros _ s2 B2 A2 _.
  call scan_version_directive_number_spec. intros a s3 B3 A3 Ha. pr.
  destruct (chk 46 (bget 0 s3)) eqn:E; cbn [negb]; [|err].
  call skip_char_spec. intros _ s4 B4 A4 _.
  call scan_version_directive_number_spec. intros b s5 B5 A5 Hb. pr. auto.
Qed.

Lemma str_eqb_eq a : forall b, str_eqb a b = true <-> a = b.
Proof.
  induction a as [|x a IH]; intros [|y b]; cbn; try (split; congruence).
  rewrite andb_true_iff, N.eqb_eq, IH. split; [intros [-> ->]; reflexivity|intros [= -> ->]; auto].
Qed.

(** Handles as they come out of [scan_tag_handle]: without the final '!' only in tags. *)
Definition handle_shape (directive : bool) (h : str) : Prop :=
  exists w, Forall name_char w /\
    (h = [33] ++ w ++ [33] \/ h = [33] ++ w /\ (directive = true -> w = [])).

Lemma scan_tag_handle_spec dir sm s : src s <> None -> mark_le sm (pos s) ->
  spec (scan_tag_handle dir sm) s (fun h s' => handle_shape dir h /\ strict s s').
Proof.
  intros Hs Hm. unfold scan_tag_handle. base s.
  call cache_spec. intros _ s1 B1 A1 _. pr.
  destruct (chk 33 (bget 0 s1)) eqn:E; cbn [negb]; [|err].
  call read_char_spec. intros h s2 B2 A2 (S2 & _ & _ & c & Hc & ->). rewrite Hc in E. cbn in E.
  apply N.eqb_eq in E. subst c.
  call cache_spec. intros _ s3 B3 A3 _.
  call read_while_spec. { apply alpha_some'. } intros h s4 B4 A4 (_ & w & -> & Hw & _). pr.
  destruct (chk 33 (bget 0 s4)) eqn:E.
  - call read_char_spec. intros h s5 B5 A5 (S5 & _ & _ & c & Hc' & ->). rewrite Hc' in E. cbn in E.
    apply N.eqb_eq in E. subst c. split; [assumption|]. split.
    + exists w. split; [assumption|]. left. rewrite <- app_assoc. reflexivity.
    + eapply strict_r; [|exact S5]. advs.
  - destruct (dir && _) eqn:Ed; [err|]. pr. split; [assumption|]. split.
    + exists w. split; [assumption|]. right. split; [reflexivity|]. intros ->. cbn [andb] in Ed.
      apply negb_false_iff, str_eqb_eq in Ed. cbn in Ed. congruence.
    + eapply strict_l; [eapply strict_r; [|exact S2]|]; advs.
Qed.

Lemma is_hex_as s i : is_hex (bget i s) = true -> exists v, as_hex (bget i s) = Some v.
Proof. unfold is_hex, as_hex. destruct (bget i s) as [c|]; [|discriminate]. intros ->. eauto. Qed.

Lemma scan_uri_escapes_spec dir sm str s : src s <> None -> mark_le sm (pos s) ->
  spec (scan_uri_escapes dir sm str) s (fun r s' => strict s s' /\ r <> []).
Proof.
  intros Hs Hm. unfold scan_uri_escapes. base s.
  eapply spec_loop with (I := fun _ _ => True); [eassumption|exact I|].
  intros [w r] s1 A1 _. call cache_spec. intros _ s2 B2 A2 _. pr.
  destruct (chk 37 (bget 0 s2) && is_hex (bget 1 s2) && is_hex (bget 2 s2)) eqn:E; cbn [negb]; [|err].
  apply andb_prop in E. destruct E as [E E2]. apply andb_prop in E. destruct E as [E0 E1].
  destruct (is_hex_as _ _ E1) as (h & ->). destruct (is_hex_as _ _ E2) as (l & ->).
  assert (Hlen : (3 <= length (buffer s2))%nat).
  { assert (bget 2 s2 <> None) as Hb by bsome. apply bget_len in Hb. lia. }
  assert (Hk : forall width, wp (skip_chars 3 ;; (if width - 1 =? 0 then ret (inr (r ++ [h * 16 + l]))
             else ret (inl (width - 1, r ++ [h * 16 + l]))))
     (fun (x : N * list N + list N) s' => match x with
              | inl _ => adv s s' /\ True /\ (meas s' < meas s1)%nat
              | inr b => adv s s' /\ strict s s' /\ b <> []
              end)
     (fun e s' => advE s s' /\ err_in e s') (spanic (debug_build s)) s2).
  { intros w'. call skip_chars_spec. intros _ s3 B3 A3 (S3 & _).
    assert (S13 : strict s1 s3) by (eapply strict_r; [|apply S3; lia]; advs).
    destruct (w' - 1 =? 0); pr.
    - split; [assumption|]. split; [apply (strict_r s s1 s3); assumption|]. destruct r; discriminate.
    - split; [assumption|]. split; [exact I|apply S13]. }
  apply wp_bind. eapply wp_conseq with (Q := fun _ s' => s' = s2)
    (E := fun e s' => advE s s' /\ err_in e s') (P := fun p => spanic (debug_build s) p); auto.
  - destruct (w =? 0); [destruct (octet_width _ =? 0); [err|pr; reflexivity]|].
    destruct (negb _); [err|pr; reflexivity].
  - intros w' s' ->. apply Hk.
Qed.

Lemma uri_some b s : uri_char_ok b (bget 0 s) = true -> bget 0 s <> None.
Proof.
  destruct (bget 0 s); [discriminate|]. unfold uri_char_ok. cbn. rewrite !andb_false_r. discriminate.
Qed.

Lemma scan_tag_uri_spec uc dir head sm s : src s <> None -> mark_le sm (pos s) ->
  spec (scan_tag_uri uc dir head sm) s (fun r _ => head = None -> r <> []).
Proof.
  intros Hs Hm. unfold scan_tag_uri. base s.
  call cache_spec. intros _ s1 B1 A1 _. apply wp_bind.
  eapply spec_loop with (I := fun '(r, l) _ => head = None -> l <> 0 -> r <> []).
  - eassumption.
  - intros ->. cbn. congruence.
  - intros [r l] s2 A2 HI. pr.
    destruct (uri_char_ok uc (bget 0 s2)) eqn:E.
    + apply uri_some in E. apply wp_bind.
      apply (spec_last _ s s2 (fun r s' => strict s2 s' /\ r <> [])); [assumption| |].
      * destruct (chk 37 (bget 0 s2)).
        -- apply scan_uri_escapes_spec; side.
        -- eapply spec_weaken; [apply read_char_spec, E|]. cbn beta. intros r' s' _ (H1 & _ & _ & c & _ & ->).
           split; [exact H1|]. destruct r; discriminate.
      * intros r' s3 B3 A3 [S3 Hr]. call cache_spec. intros _ s4 B4 A4 _. pr.
        split; [assumption|]. split; [auto|]. apply (strict_l _ _ _ S3 B4).
    + pr. destruct (N.eqb_spec l 0); [err|]. pr. split; [assumption|]. intros H. auto.
Qed.

Lemma scan_tag_directive_value_spec sm s : src s <> None -> mark_le sm (pos s) ->
  spec (scan_tag_directive_value sm) s (fun '(h, p) _ => handle_wf h /\ p <> []).
Proof.
  intros Hs Hm. unfold scan_tag_directive_value. base s.
  call cache_spec. intros _ s1 B1 A1 _. call skip_while_spec. { loopcond. } intros _ s2 B2 A2 _.
  call scan_tag_handle_spec. intros h s3 B3 A3 [Hh _].
  call cache_spec. intros _ s4 B4 A4 _. pr. destruct (negb _) eqn:E; [err|].
  call skip_while_spec. { loopcond. } intros _ s5 B5 A5 _.
  call scan_tag_uri_spec. intros p s6 B6 A6 Hp. call cache_spec. intros _ s7 B7 A7 _. pr.
  destruct (negb (is_blankz _)); [err|]. pr. split; [assumption|]. split; [|auto].
  destruct Hh as (w & Hw & [->|[-> Hd]]); [right; eauto|].
  rewrite (Hd eq_refl). left. reflexivity.
Qed.

(** The mark and payload part of the specification of the functions that return a token. *)
Definition tok_post (s : sst) (t : token) (s' : sst) : Prop :=
  t_start t = pos s /\ mark_le (t_start t) (t_end t) /\ mark_le (t_end t) (pos s')
  /\ token_wf (t_data t) /\ strict s s'.

Lemma scan_directive_spec s : src s <> None -> bget 0 s <> None -> spec scan_directive s (tok_post s).
Proof.
  intros Hs H0. unfold scan_directive. base s. pr.
  call skip_char_spec. intros _ s1 B1 A1 (S1 & _).
  call scan_directive_name_spec. intros name s2 B2 A2 _. apply wp_bind.
  apply (spec_last _ s s2 (fun d _ => token_wf d)); [assumption| |].
  { destruct (str_eqb name _).
    - eapply spec_seq; [apply adv_refl|apply scan_version_directive_value_spec; side|].
      cbn beta. intros [a b] s3 B3 A3 H. pr. auto.
    - destruct (str_eqb name _).
      + eapply spec_seq; [apply adv_refl|apply scan_tag_directive_value_spec; side|].
        cbn beta. intros [h p] s3 B3 A3 H. pr. auto.
      + apply scan_error_spec. side. }
  intros d s3 B3 A3 Hd. pr. call cache_spec. intros _ s4 B4 A4 _.
  call skip_while_spec. { loopcond. } intros _ s5 B5 A5 _. pr.
  call when_spec. { intros E. apply (skip_while_spec _ s5); [loopcond|src_ok]. } intros _ s6 B6 A6 _. pr.
  destruct (is_breakz (bget 0 s6)); [|err].
  call when_spec.
  { intros E. eapply spec_seq; [apply adv_refl|apply cache_spec; src_ok|]. cbn beta.
    intros _ s7 B7 _ _. eapply spec_last; [eassumption|apply skip_line_break_spec|].
    cbn beta. intros ? s8 ? ? X. split; [assumption|exact I]. }
  intros _ s7 B7 A7 _. pr. split; [assumption|]. split; [reflexivity|]. cbn [t_start t_end t_data].
  split; [mle|]. split; [|split; [exact Hd|]].
  - apply adv_mark_le. advs.
  - eapply strict_l; [exact S1|]. advs.
Qed.

Lemma scan_anchor_spec al s : src s <> None -> bget 0 s <> None -> spec (scan_anchor al) s (tok_post s).
Proof.
  intros Hs H0. unfold scan_anchor. base s. pr.
  call skip_char_spec. intros _ s1 B1 A1 (S1 & _). call cache_spec. intros _ s2 B2 A2 _.
  call read_while_spec. { apply alpha_some'. } intros x s3 B3 A3 (_ & w & -> & Hw & _). pr. pr.
  cbn [app]. destruct (is_empty w || _) eqn:E; [err|]. pr. split; [assumption|].
  split; [reflexivity|]. cbn [t_start t_end t_data].
  split; [mle|]. split; [mle|]. split; [|eapply strict_l; [exact S1|]; advs].
  destruct w; [discriminate|]. destruct al; (split; [discriminate|exact Hw]).
Qed.

Lemma last_opt_cons c (w : str) : last_opt (c :: w) = Some (last (c :: w) 0).
Proof. revert c. induction w as [|d w IH]; intros c; [reflexivity|]. exact (IH d). Qed.
Lemma last_In c (w : str) : In (last (c :: w) 0) (c :: w).
Proof. revert c. induction w as [|d w IH]; intros c; [left; reflexivity|]. right. exact (IH d). Qed.
Lemma starts_ends_bang w : Forall name_char w ->
  (1 <? str_len ([33] ++ w)) && ends_with 33 ([33] ++ w) = false.
Proof.
  intros Hw. destruct w as [|c w]; [reflexivity|].
  unfold ends_with. change (last_opt ([33] ++ c :: w)) with (last_opt (c :: w)). rewrite last_opt_cons.
  rewrite Forall_forall in Hw. specialize (Hw _ (last_In c w)).
  apply andb_false_iff. right. unfold name_char in Hw. lia.
Qed.

Lemma scan_tag_spec s : src s <> None -> bget 0 s <> None -> spec scan_tag s (tok_post s).
Proof.
  intros Hs H0. unfold scan_tag. base s. pr. call cache_spec. intros _ s1 B1 A1 [_ R1]. pr.
  apply wp_bind.
  assert (H1 : bget 0 s1 <> None).
  { destruct (rd_buf _ _ R1) as (x & Hx & _). apply bget_len in H0. apply bget_len.
    rewrite Hx, app_length. lia. }
  apply (spec_last _ s s1 (fun '(h, sf) s' => ((h = [] \/ handle_wf h) /\ sf <> []) /\ strict s1 s'));
    [assumption| |].
  { destruct (chk 60 (bget 1 s1)) eqn:E.
    - eapply spec_seq; [apply adv_refl|apply skip_char_spec; side|]. cbn beta. intros _ s2 B2 A2 (S2 & Hb & _).
      call skip_char_spec. { rewrite (bget_tl s1) by assumption. bsome. } intros _ s3 B3 A3 _.
      call scan_tag_uri_spec. intros sf s4 B4 A4 Hsf. pr. destruct (chk 62 (bget 0 s4)) eqn:E4; cbn [negb]; [|err].
      call skip_char_spec. intros _ s5 B5 A5 _. pr. split; [assumption|]. split; [auto|].
      eapply strict_l; [exact S2|]. advs.
    - eapply spec_seq; [apply adv_refl|apply scan_tag_handle_spec; side|]. cbn beta.
      intros h s2 B2 A2 [(w & Hw & Hh) S2].
      destruct (starts_with 33 h && (1 <? str_len h) && ends_with 33 h) eqn:E1.
      + call scan_tag_uri_spec. intros sf s3 B3 A3 Hsf. pr. split; [assumption|].
        split; [|eapply strict_l; [exact S2|]; advs]. split; [|auto]. right.
        destruct Hh as [->|[-> _]]; [right; eauto|]. exfalso.
        rewrite <- andb_assoc, (starts_ends_bang w Hw), andb_false_r in E1. discriminate.
      + call scan_tag_uri_spec. intros sf s3 B3 A3 _. destruct (is_empty sf) eqn:Es; pr.
        * split; [assumption|]. split; [|eapply strict_l; [exact S2|]; advs]. split; [auto|discriminate].
        * split; [assumption|]. split; [|eapply strict_l; [exact S2|]; advs].
          split; [right; left; reflexivity|]. destruct sf; discriminate. }
  intros [h sf] s2 B2 A2 [Hw S2]. cbn beta iota. call cache_spec. intros _ s3 B3 A3 _. pr.
  apply wp_bind. destruct (negb (is_blankz (bget 0 s3))).
  { destruct (_ || _); [err|]. apply wp_panics. left; reflexivity. }
  pr. pr. pr. split; [assumption|]. split; [reflexivity|]. cbn [t_start t_end t_data].
  split; [mle|]. split; [mle|]. split; [exact Hw|].
  eapply strict_l; [eapply strict_r; [exact B1|exact S2]|exact B3].
Qed.

(** ** Block scalars *)

Lemma scan_block_scalar_breaks_spec ind br sm em s : src s <> None -> mark_le sm (pos s) ->
  spec (scan_block_scalar_breaks ind br sm em) s
       (fun '(_, _, e) s' => mark_le (pos s) e /\ mark_le e (pos s')).
Proof.
  intros Hs Hm. unfold scan_block_scalar_breaks. base s. pr. apply wp_bind.
  eapply spec_loop with (I := fun '(_, _, e) s' => mark_le (pos s) e /\ mark_le e (pos s')).
  - eassumption.
  - split; apply mark_le_refl.
  - intros [[mi b] e] s1 A1 [He1 He2]. call cache_spec. intros _ s2 B2 A2 _.
    call skip_while_spec. { loopcond. } intros _ s3 B3 A3 _. pr. cbn zeta.
    destruct (_ && is_tab (bget 0 s3)); [err|].
    assert (He3 : mark_le e (pos s3)).
    { eapply mark_le_trans; [exact He2|]. apply adv_mark_le. advs. }
    destruct (is_break (bget 0 s3)) eqn:Eb; cbn [negb].
    + call cache_spec. intros _ s4 B4 A4 [_ R]. call read_line_break_spec. intros b' s5 B5 A5 [S5 _]. pr. pr.
      split; [assumption|]. split.
      * split; [mle|apply mark_le_refl].
      * assert (S : strict s4 s5).
        { apply S5. destruct (rd_buf _ _ R) as (x & Hx & _). unfold bget in *. rewrite Hx.
          destruct (buffer s3); [discriminate|exact Eb]. }
        apply (strict_r s1 s4 s5); [advs|exact S].
    + pr. pr. pr. auto.
Qed.

Lemma as_digit_some s : is_digit (bget 0 s) = true -> exists d, as_digit (bget 0 s) = Some d.
Proof. unfold is_digit, as_digit. destruct (bget 0 s) as [c|]; [|discriminate]. intros ->. eauto. Qed.

Lemma scan_block_header_digit_spec sm s : src s <> None -> mark_le sm (pos s) -> is_digit (bget 0 s) = true ->
  spec (scan_block_header_digit sm) s Qt.
Proof.
  intros Hs Hm Hd. unfold scan_block_header_digit. base s. pr. destruct (chk 48 (bget 0 s)); [err|].
  destruct (as_digit_some _ Hd) as (d & ->). call skip_char_spec. intros _ s1 B1 A1 _. pr.
  split; [assumption|exact I].
Qed.

Lemma scan_block_header_spec sm s : src s <> None -> mark_le sm (pos s) -> spec (scan_block_header sm) s Qt.
Proof.
  intros Hs Hm. unfold scan_block_header. base s. pr.
  destruct (chk 43 (bget 0 s) || chk 45 (bget 0 s)) eqn:E.
  - cbn zeta. call skip_char_spec. intros _ s1 B1 A1 _. call cache_spec. intros _ s2 B2 A2 _. pr.
    destruct (is_digit (bget 0 s2)) eqn:Ed; [|pr; split; [assumption|exact I]].
    call scan_block_header_digit_spec. intros d s3 B3 A3 _. pr. split; [assumption|exact I].
  - destruct (is_digit (bget 0 s)) eqn:Ed; [|pr; split; [assumption|exact I]].
    call scan_block_header_digit_spec. intros d s1 B1 A1 _. call cache_spec. intros _ s2 B2 A2 _. pr.
    destruct (chk 43 (bget 0 s2) || chk 45 (bget 0 s2)) eqn:E2; cbn zeta; [|pr; split; [assumption|exact I]].
    call skip_char_spec. intros _ s3 B3 A3 _. pr. split; [assumption|exact I].
Qed.

Lemma breakz_some' s : negb (is_breakz (bget 0 s)) = true -> exists c, bget 0 s = Some c /\ is_break_c c = false.
Proof.
  destruct (bget 0 s) as [c|] eqn:E; cbn; [|discriminate]. intros H. exists c. split; [reflexivity|].
  apply negb_true_iff in H. exact H.
Qed.

Lemma block_scalar_lines_spec li sm ind tb em s : src s <> None -> mark_le sm (pos s) -> 
  mark_le sm em -> mark_le em (pos s) ->
  spec (block_scalar_lines li sm ind tb em) s (fun '(_, _, _, e) s' => mark_le sm e /\ mark_le e (pos s')).
Proof.
  intros Hs Hm He1 He2. unfold block_scalar_lines. base s. apply wp_bind.
  eapply spec_loop with (I := fun '(_, _, _, _, _, e) s' => mark_le sm e /\ mark_le e (pos s')).
  - eassumption.
  - auto.
  - intros [[[[[str lb] tb1] lbl] ind1] e] s1 A1 [H1 H2]. pr.
    destruct (negb (bcol s1 =? ind1)%Z || is_z (bget 0 s1)) eqn:E; [pr; pr; auto|]. cbn zeta.
    call read_while_spec. { apply breakz_some'. } intros x s2 B2 A2 (Hc & y & _ & _ & Hp).
    call cache_spec. intros _ s3 B3 A3 [_ R]. call read_line_break_spec. intros lb' s4 B4 A4 [S4 _].
    call scan_block_scalar_breaks_spec. intros [[ind2 tb2] e2] s5 B5 A5 [He3 He4]. pr.
    split; [assumption|]. split; [split; [|assumption]|].
    + eapply mark_le_trans; [|exact He3]. mle.
    + destruct Hp as [[-> _]|Hp].
      * apply orb_false_iff in E. destruct E as [_ E].
        assert (Eb : is_break (bget 0 s1) = true).
        { apply negb_false_iff in Hc. unfold is_breakz in Hc. rewrite E in Hc. exact Hc. }
        assert (S : strict s3 s4).
        { apply S4. destruct (rd_buf _ _ R) as (z & Hz & _). unfold bget in *. rewrite Hz.
          destruct (buffer s1); [discriminate|exact Eb]. }
        apply (strict_l s1 s4 s5); [|assumption]. apply (strict_r s1 s3 s4); [advs|exact S].
      * apply (strict_l s1 s2 s5); [exact Hp|advs].
Qed.

Lemma scan_block_scalar_spec li s : src s <> None -> bget 0 s <> None -> spec (scan_block_scalar li) s (tok_post s).
Proof.
  intros Hs H0. unfold scan_block_scalar. base s. pr.
  call skip_char_spec. intros _ s1 B1 A1 (S1 & _). call cache_spec. intros _ s2 B2 A2 _.
  call scan_block_header_spec. intros [ch inc] s3 B3 A3 _. cbn beta iota.
  call cache_spec. intros _ s4 B4 A4 _. call skip_while_spec. { loopcond. } intros _ s5 B5 A5 _. pr.
  call when_spec. { intros E. apply (skip_while_spec _ s5); [loopcond|src_ok]. } intros _ s6 B6 A6 _. pr.
  apply wp_bind. destruct (negb (is_breakz (bget 0 s6))); [err|]. pr.
  call when_spec.
  { intros E. eapply spec_seq; [apply adv_refl|apply cache_spec; src_ok|]. cbn beta.
    intros _ s7 B7 _ _. eapply spec_last; [eassumption|apply skip_line_break_spec|].
    cbn beta. intros ? s8 ? ? X. split; [assumption|exact I]. }
  intros _ s7 B7 A7 _. pr. pr. cbn zeta.
  call scan_block_scalar_breaks_spec. intros [[ind tb] em] s8 B8 A8 [He1 He2]. cbn beta iota.
  call cache_spec. intros _ s9 B9 A9 _.
  call block_scalar_lines_spec. { eapply mark_le_trans; [|exact He1]. mle. }
  intros [[[str lb] tb2] em2] sa Ba Aa [Hf1 Hf2]. pr. split; [assumption|]. split; [reflexivity|].
  cbn [t_start t_end t_data]. split; [assumption|]. split; [assumption|].
  split; [destruct li; discriminate|]. eapply strict_l; [exact S1|advs].
Qed.

(** ** Quoted scalars *)

Lemma hex_value_len n : forall l acc v, hex_value n l acc = Some v -> (n <= length l)%nat.
Proof.
  induction n as [|n IH]; intros l acc v; cbn [hex_value]; [lia|].
  destruct l as [|c l]; [discriminate|]. destruct (is_hex_c c); [|discriminate].
  intros H. apply IH in H. cbn. lia.
Qed.

Lemma scan_escape_spec sm str s : src s <> None -> mark_le sm (pos s) -> bget 0 s <> None ->
  spec (scan_escape sm str) s (fun _ s' => strict s s').
Proof.
  intros Hs Hm H0. unfold scan_escape. base s. pr.
  destruct (bget 1 s) as [c|] eqn:H1; [|apply wp_panics; right; left; reflexivity].
  destruct (escape_code c) as [[ch|n]|]; [..|err].
  - call skip_char_spec. intros _ s1 B1 A1 (S1 & Hb & _).
    call skip_char_spec. { rewrite (bget_tl s) by assumption. congruence. } intros _ s2 B2 A2 _. pr.
    split; [assumption|]. eapply strict_l; eassumption.
  - call skip_char_spec. intros _ s1 B1 A1 (S1 & Hb & _).
    call skip_char_spec. { rewrite (bget_tl s) by assumption. congruence. } intros _ s2 B2 A2 _.
    call cache_spec. intros _ s3 B3 A3 _. pr. destruct (hex_value n (buffer s3) 0) as [v|] eqn:E; [|err].
    destruct (char_from_u32 v); [|err]. apply hex_value_len in E.
    call skip_chars_spec. intros _ s4 B4 A4 _. pr. split; [assumption|].
    eapply strict_l; [exact S1|]. advs.
Qed.

Lemma rd_bget s s' i : rd s s' -> bget i s <> None -> bget i s' = bget i s.
Proof.
  intros R H. destruct (rd_buf _ _ R) as (x & Hx & _). apply bget_len in H. unfold bget. rewrite Hx.
  apply nth_error_app1, H.
Qed.

Lemma flow_scalar_text_spec single sm str s : src s <> None -> mark_le sm (pos s) ->
  spec (flow_scalar_text single sm str) s
    (fun _ s' => strict s s' \/ s' = s /\ (is_blankz (bget 0 s) || chk (quote_char single) (bget 0 s)) = true).
Proof.
  intros Hs Hm. unfold flow_scalar_text. base s.
  eapply spec_loop with (I := fun _ s' => s' = s \/ strict s s'); [eassumption|auto|].
  intros str1 s1 A1 HI. pr.
  assert (Hstep : forall s', strict s1 s' -> s' = s \/ strict s s').
  { intros s' H. right. destruct HI as [->|HI]; [assumption|]. apply (strict_r s s1 s'); assumption. }
  destruct (is_blankz (bget 0 s1)) eqn:E1.
  { pr. split; [assumption|]. destruct HI as [->|HI]; auto. rewrite E1. auto. }
  assert (H0 : bget 0 s1 <> None) by bsome.
  destruct (single && chk 39 (bget 0 s1) && chk 39 (bget 1 s1)) eqn:E2.
  { call skip_char_spec. intros _ s2 B2 A2 (S2 & Hb & _).
    call skip_char_spec. { rewrite (bget_tl s1) by assumption. bsome. } intros _ s3 B3 A3 _.
    call cache_spec. intros _ s4 B4 A4 _. pr. split; [assumption|].
    assert (S4 : strict s1 s4) by (eapply strict_l; [exact S2|advs]). split; [auto|apply S4]. }
  destruct (chk (quote_char single) (bget 0 s1)) eqn:E3.
  { pr. split; [assumption|]. destruct HI as [->|HI]; auto. rewrite E3, orb_true_r. auto. }
  destruct (negb single && chk 92 (bget 0 s1) && is_break (bget 1 s1)) eqn:E4.
  { call cache_spec. intros _ s2 B2 A2 [_ R]. call skip_char_spec. { rewrite (rd_bget s1) by assumption. assumption. }
    intros _ s3 B3 A3 (S3 & _). call skip_line_break_spec. intros _ s4 B4 A4 _. pr. split; [assumption|]. left.
    apply (strict_r s s1 s4); [assumption|]. apply (strict_l s1 s3 s4); [|assumption].
    apply (strict_r s1 s2 s3); assumption. }
  destruct (negb single && chk 92 (bget 0 s1)) eqn:E5.
  { call scan_escape_spec. intros str2 s2 B2 A2 S2. call cache_spec. intros _ s3 B3 A3 _. pr.
    assert (S4 : strict s1 s3) by (eapply strict_l; [exact S2|advs]). split; [assumption|].
    split; [auto|apply S4]. }
  call read_char_spec. intros str2 s2 B2 A2 (S2 & _). call cache_spec. intros _ s3 B3 A3 _. pr.
  assert (S4 : strict s1 s3) by (eapply strict_l; [exact S2|advs]). split; [assumption|].
  split; [auto|apply S4].
Qed.

Lemma flow_scalar_blanks_spec lb tb ws bl s : src s <> None ->
  spec (flow_scalar_blanks lb tb ws bl) s
    (fun _ s' => (is_blank (bget 0 s) || is_break (bget 0 s)) = true -> strict s s').
Proof.
  intros Hs. unfold flow_scalar_blanks. base s.
  eapply spec_loop with (I := fun _ s' => s' = s \/ strict s s'); [eassumption|auto|].
  intros [[[lb1 tb1] ws1] bl1] s1 A1 HI. pr.
  assert (Hstep : forall s', strict s1 s' -> s' = s \/ strict s s').
  { intros s' H. right. destruct HI as [->|HI]; [assumption|]. apply (strict_r s s1 s'); assumption. }
  destruct (is_blank (bget 0 s1)) eqn:E1.
  { assert (H0 : bget 0 s1 <> None) by bsome.
    destruct bl1.
    - call skip_char_spec. intros _ s2 B2 A2 (S2 & _). call cache_spec. intros _ s3 B3 A3 _. pr.
      assert (S4 : strict s1 s3) by (eapply strict_l; [exact S2|advs]). split; [assumption|].
      split; [auto|apply S4].
    - call read_char_spec. intros ? s2 B2 A2 (S2 & _). call cache_spec. intros _ s3 B3 A3 _. pr.
      assert (S4 : strict s1 s3) by (eapply strict_l; [exact S2|advs]). split; [assumption|].
      split; [auto|apply S4]. }
  destruct (is_break (bget 0 s1)) eqn:E2.
  { assert (H0 : bget 0 s1 <> None) by bsome.
    call cache_spec. intros _ s2 B2 A2 [_ R].
    assert (E2' : is_break (bget 0 s2) = true) by (rewrite (rd_bget s1) by assumption; assumption).
    destruct bl1.
    - call read_line_break_spec. intros ? s3 B3 A3 [S3 _]. call cache_spec. intros _ s4 B4 A4 _. pr.
      assert (S4 : strict s1 s4) by (apply (strict_l s1 s3 s4); [apply (strict_r s1 s2 s3); auto|advs]). split; [assumption|].
      split; [auto|apply S4].
    - call read_line_break_spec. intros ? s3 B3 A3 [S3 _]. call cache_spec. intros _ s4 B4 A4 _. pr.
      assert (S4 : strict s1 s4) by (apply (strict_l s1 s3 s4); [apply (strict_r s1 s2 s3); auto|advs]). split; [assumption|].
      split; [auto|apply S4]. }
  pr. split; [assumption|]. destruct HI as [->|HI]; [|auto]. rewrite E1, E2. discriminate.
Qed.

Lemma scan_flow_scalar_spec single s : src s <> None -> bget 0 s <> None ->
  spec (scan_flow_scalar single) s (tok_post s).
Proof.
  intros Hs H0. unfold scan_flow_scalar. base s. pr.
  call skip_char_spec. intros _ s1 B1 A1 (S1 & _). apply wp_bind.
  eapply spec_loop with (I := fun _ s' => adv s1 s'); [eassumption|apply adv_refl|].
  intros [[[str lb] tb] ws] s2 A2 HI. call cache_spec. intros _ s3 B3 A3 _. pr.
  destruct (at_document_indicator s3); [err|].
  destruct (is_z (bget 0 s3)) eqn:Ez; [err|]. assert (H3 : bget 0 s3 <> None) by bsome.
  call cache_spec. intros _ s4 B4 A4 [_ R4].
  assert (H4 : bget 0 s4 <> None) by (rewrite (rd_bget s3) by assumption; assumption).
  call flow_scalar_text_spec. intros [str1 bl] s5 B5 A5 P5. cbn beta iota.
  call cache_spec. intros _ s6 B6 A6 [_ R6]. pr.
  destruct (chk (quote_char single) (bget 0 s6)) eqn:Eq.
  - pr. call skip_char_spec. intros _ s7 B7 A7 _. pr. pr. split; [assumption|].
    split; [reflexivity|]. cbn [t_start t_end t_data]. split; [mle|]. split; [mle|].
    split; [destruct single; discriminate|]. eapply strict_l; [exact S1|]. advs.
  - call cache_spec. intros _ s7 B7 A7 [_ R7]. call flow_scalar_blanks_spec.
    intros [[[lb2 tb2] ws2] bl2] s8 B8 A8 P8. cbn beta iota.
    assert (S : strict s2 s8).
    { destruct P5 as [P5|[-> P5]].
      - apply (strict_l s2 s5 s8); [|advs]. apply (strict_r s2 s4 s5); [advs|exact P5].
      - apply (strict_r s2 s7 s8); [advs|]. apply P8.
        rewrite (rd_bget s6 s7 0 R7), (rd_bget s4 s6 0 R6); try assumption;
          rewrite ?(rd_bget s4 s6 0 R6) by assumption; try assumption.
        rewrite (rd_bget s4 s6 0 R6) in Eq by assumption.
        rewrite Eq, orb_false_r in P5. unfold is_blankz, is_breakz in P5.
        destruct (bget 0 s4); [exact P5|congruence]. }
    destruct bl2; pr; (split; [assumption|]); (split; [advs|apply S]).
Qed.

(** ** Plain scalars *)

Lemma plain_text_spec sm p s : src s <> None -> mark_le sm (pos s) -> mark_le sm (pl_end p) -> mark_le (pl_end p) (pos s) ->
  spec (plain_text sm p) s
    (fun p' s' => (s' = s /\ (is_blankz (bget 0 s) || plain_stop s) = true \/ strict s s')
                  /\ mark_le sm (pl_end p') /\ mark_le (pl_end p') (pos s')).
Proof.
  intros Hs Hm He1 He2. unfold plain_text. base s.
  eapply spec_loop with (I := fun p' s' => (s' = s \/ strict s s')
                  /\ mark_le sm (pl_end p') /\ mark_le (pl_end p') (pos s')); [eassumption|auto|].
  intros p1 s1 A1 (HI & H1 & H2). pr.
  destruct (is_blankz (bget 0 s1)) eqn:E1.
  { pr. split; [assumption|]. split; [|auto]. destruct HI as [->|HI]; [left|right; assumption].
    rewrite E1. auto. }
  assert (H0 : bget 0 s1 <> None) by bsome.
  destruct (plain_bad_colon s1); [err|].
  destruct (plain_stop s1) eqn:E2.
  { pr. split; [assumption|]. split; [|auto]. destruct HI as [->|HI]; [left|right; assumption].
    rewrite E2, orb_true_r. auto. }
  cbn zeta. call read_char_spec. intros r s2 B2 A2 (S2 & _). pr. call cache_spec. intros _ s3 B3 A3 _. pr.
  assert (S3 : strict s1 s3) by (eapply strict_l; [exact S2|advs]).
  split; [assumption|]. split; [|apply S3]. split; [right; apply (strict_r s s1 s3); [assumption|exact S3]|].
  cbn [pl_end]. split; [mle|apply adv_mark_le; assumption].
Qed.

Lemma plain_blanks_spec sm ind p s : src s <> None -> mark_le sm (pos s) ->
  spec (plain_blanks sm ind p) s
    (fun p' s' => ((is_blank (bget 0 s) || is_break (bget 0 s)) = true -> strict s s') /\ pl_end p' = pl_end p).
Proof.
  intros Hs Hm. unfold plain_blanks. base s.
  eapply spec_loop with (I := fun p' s' => (s' = s \/ strict s s') /\ pl_end p' = pl_end p); [eassumption|auto|].
  intros p1 s1 A1 [HI Hp]. pr.
  assert (Hstep : forall s', strict s1 s' -> s' = s \/ strict s s').
  { intros s' H. right. destruct HI as [->|HI]; [assumption|]. apply (strict_r s s1 s'); assumption. }
  destruct (is_blank (bget 0 s1)) eqn:E1.
  { assert (H0 : bget 0 s1 <> None) by bsome.
    destruct (pl_leading_blanks p1 && _ && _); [err|].
    destruct (negb (pl_leading_blanks p1)).
    - call read_char_spec. intros ? s2 B2 A2 (S2 & _). call cache_spec. intros _ s3 B3 A3 _. pr.
      assert (S4 : strict s1 s3) by (eapply strict_l; [exact S2|advs]). split; [assumption|].
      split; [auto|apply S4].
    - call skip_char_spec. intros _ s2 B2 A2 (S2 & _). call cache_spec. intros _ s3 B3 A3 _. pr.
      assert (S4 : strict s1 s3) by (eapply strict_l; [exact S2|advs]). split; [assumption|].
      split; [auto|apply S4]. }
  destruct (is_break (bget 0 s1)) eqn:E2.
  { assert (H0 : bget 0 s1 <> None) by bsome.
    call cache_spec. intros _ s2 B2 A2 [_ R].
    assert (E2' : is_break (bget 0 s2) = true) by (rewrite (rd_bget s1) by assumption; assumption).
    destruct (pl_leading_blanks p1).
    - call read_line_break_spec. intros ? s3 B3 A3 [S3 _]. call cache_spec. intros _ s4 B4 A4 _. pr.
      assert (S4 : strict s1 s4) by (apply (strict_l s1 s3 s4); [apply (strict_r s1 s2 s3); auto|advs]). split; [assumption|].
      split; [auto|apply S4].
    - call read_line_break_spec. intros ? s3 B3 A3 [S3 _]. call cache_spec. intros _ s4 B4 A4 _. pr.
      assert (S4 : strict s1 s4) by (apply (strict_l s1 s3 s4); [apply (strict_r s1 s2 s3); auto|advs]). split; [assumption|].
      split; [auto|apply S4]. }
  pr. split; [assumption|]. split; [|assumption]. destruct HI as [->|HI]; [|auto]. rewrite E1, E2. discriminate.
Qed.

(** A plain scalar is scanned where [fetch_next_token] allows it: enough look-ahead is
    available and it makes progress. *)
Definition plain_ok (s : sst) : Prop :=
  avail 4 s /\ encok s /\ plain_start s = true /\ at_document_indicator s = false /\
  (flow_level s <> 0 -> chk 63 (bget 0 s) = false /\ chk 58 (bget 0 s) = false).

Lemma plain_start_go s : plain_start s = true ->
  (flow_level s <> 0 -> chk 63 (bget 0 s) = false /\ chk 58 (bget 0 s) = false) ->
  bget 0 s <> None /\ chk 35 (bget 0 s) = false /\ (is_blankz (bget 0 s) || plain_stop s) = false.
Proof.
  unfold plain_start, plain_stop. intros H Hfl. destruct (bget 0 s) as [c|] eqn:E.
  2:{ cbn in H. rewrite !andb_false_r in H. discriminate. }
  split; [congruence|]. clear E.
  destruct (flow_level s =? 0) eqn:Efl.
  - cbn [negb andb orb] in *. rewrite !orb_false_r in *.
    generalize dependent (is_blankz (bget 1 s)). generalize dependent (is_blank (bget 1 s)). intros b1 b2 H.
    unfold chk, is_blankz, is_blank, is_breakz, is_space, is_tab, is_z, is_break, is_break_c in *. cbn [chk] in *.
    unfold chk in *. destruct b1, b2; lia.
  - assert (flow_level s <> 0) as Hf by (apply N.eqb_neq, Efl). destruct (Hfl Hf) as [H63 H58].
    rewrite H63, H58 in *. cbn [negb andb orb] in *. rewrite ?orb_false_r in *.
    apply orb_prop in H. destruct H as [H|H].
    + apply negb_true_iff in H.
      repeat match goal with H : _ || _ = false |- _ => apply orb_false_iff in H; destruct H end.
      repeat match goal with H : ?x = false |- context [?x] => rewrite H end. split; reflexivity.
    + apply andb_true_iff in H. destruct H as [H _]. cbn [chk] in H. apply N.eqb_eq in H. subst c. split; reflexivity.
Qed.

Lemma scan_plain_scalar_spec s : src s <> None -> plain_ok s -> spec scan_plain_scalar s (tok_post s).
Proof.
  intros Hs (Hav & He & Hst & Hdi & Hfl). unfold scan_plain_scalar. base s. pr. cbn zeta. apply wp_bind.
  destruct (plain_start_go s Hst Hfl) as (H0 & Hh & Hgo).
  assert (Hne : buffer s <> []) by (unfold bget in H0; destruct (buffer s); [contradiction|discriminate]).
  eapply spec_loop with (I := fun p s' => (s' = s \/ strict s s') /\ mark_le (pos s) (pl_end p) /\ mark_le (pl_end p) (pos s'));
    [eassumption| |].
  { split; [auto|]. split; apply mark_le_refl. }
  intros p s1 A1 (HI & He1 & He2).
  assert (Hend : forall (p' : plain_st) s2, adv s s2 -> strict s s2 -> mark_le (pos s) (pl_end p') -> mark_le (pl_end p') (pos s2) ->
    wp (when (pl_leading_blanks p') (modify (set_simple_key_allowed true)) ;;
        ret (Mk_token (TScalar (pl_string p') SPlain) (pos s) (pl_end p')))
      (fun a s' => adv s s' /\ tok_post s a s') (fun e s' => advE s s' /\ err_in e s') (spanic (debug_build s)) s2).
  { intros p' s2 C1 C2 C3 C4. call when_spec.
    { intros _. apply (ska_spec (set_simple_key_allowed true) s2). eauto. }
    intros _ s3 D1 D2 _. pr. split; [assumption|]. split; [reflexivity|]. cbn [t_start t_end t_data].
    split; [assumption|]. split; [mle|]. split; [discriminate|]. eapply strict_l; eassumption. }
  apply wp_bind.
  assert (Hc : wp (cache 4) (fun _ s' => adv s1 s' /\ (s1 = s -> s' = s) /\ rd s1 s')
              (fun e s' => advE s s' /\ err_in e s') (spanic (debug_build s)) s1).
  { destruct HI as [->|HI].
    - unfold wp. rewrite (cache_noop 4 s Hs Hav He Hne). split; [apply adv_refl|]. split; [auto|apply rd_refl].
    - eapply spec_last; [eassumption|apply cache_spec; src_ok|]. cbn beta. intros _ s' C1 C2 [_ R]. split; [assumption|].
      split; [|assumption]. intros ->. exfalso. destruct HI as (HI & _). lia. }
  eapply wp_conseq; [exact Hc| |auto|auto]. cbn beta. clear Hc.
  intros _ s2 (B2 & Hs2 & R2). assert (A2 : adv s s2) by advs. pr.
  assert (He3 : mark_le (pl_end p) (pos s2)) by (rewrite (rd_pos _ _ R2); assumption).
  assert (HI2 : s2 = s \/ strict s s2).
  { destruct HI as [->|HI]; [left; auto|right; apply (strict_l s s1 s2); assumption]. }
  destruct (at_document_indicator s2) eqn:Ed.
  { pr. destruct HI2 as [->|HI2]; [congruence|]. apply Hend; assumption. }
  destruct (chk 35 (bget 0 s2)) eqn:Eh.
  { pr. destruct HI2 as [->|HI2]; [congruence|]. apply Hend; assumption. }
  call plain_text_spec. intros p3 s3 B3 A3 (P3 & He4 & He5). pr.
  assert (S3 : strict s s3).
  { destruct P3 as [[-> P3]|P3]; [|apply (strict_r s s2 s3); assumption].
    destruct HI2 as [->|HI2]; [congruence|exact HI2]. }
  destruct (is_blank (bget 0 s3) || is_break (bget 0 s3)) eqn:Eb; cbn [negb].
  2:{ pr. apply Hend; assumption. }
  call cache_spec. intros _ s4 B4 A4 [_ R4].
  assert (H3 : bget 0 s3 <> None) by bsome.
  call plain_blanks_spec. intros p5 s5 B5 A5 [P5 Hp5]. pr.
  assert (S5 : strict s4 s5) by (apply P5; rewrite (rd_bget s3) by assumption; assumption).
  assert (He6 : mark_le (pl_end p5) (pos s5)).
  { rewrite Hp5. eapply mark_le_trans; [exact He5|]. apply adv_mark_le. advs. }
  assert (S05 : strict s s5) by (eapply strict_l; [exact S3|advs]).
  destruct (_ && _).
  - pr. apply Hend; try assumption. rewrite Hp5; assumption.
  - pr. split; [assumption|]. split; [split; [auto|split; [rewrite Hp5; assumption|assumption]]|].
    apply (strict_r s1 s4 s5); [advs|exact S5].
Qed.
