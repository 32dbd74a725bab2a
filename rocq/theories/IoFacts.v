(** IoFacts.v -- I/O errors of the reader are reported exactly once, by the call that meets them. *)
From Coq Require Import ZifyBool ZifyNat ZifyN.
From Verif Require Import Base Utf Chars State Reader Scanner Parser Document Spec_Tokens Spec_Scanner.

(** The I/O errors (other than Interrupted) the reader has still to return, in order. *)
Definition io_failures (i : source) : list N :=
  flat_map (fun e => match e with SFail k => [k] | _ => [] end) (s_evs i).
Definition pend (s : sst) : list N := match src s with Some i => io_failures i | None => [] end.
Definition reported {A} (r : res A) : list N := match r with Err (EIo (OtherIo k)) => [k] | _ => [] end.

(** [Fp pd en m]: running [m] removes from the pending errors exactly the one it reports; it
    reports Interrupted only if the encoding is still undetermined. *)
Definition Fps {S A} (pd : S -> list N) (en : S -> encoding) (m : M S A) (s : S) : Prop :=
  pd s = reported (fst (m s)) ++ pd (snd (m s)) /\
  (fst (m s) = Err (EIo Interrupted) -> en (snd (m s)) = EncAny) /\
  (en s <> EncAny -> en (snd (m s)) <> EncAny).
Definition Fp {S A} (pd : S -> list N) (en : S -> encoding) (m : M S A) : Prop := forall s, Fps pd en m s.

Section rules.
  Context {S : Type} (pd : S -> list N) (en : S -> encoding).
  Lemma Fp_ret {A} (a : A) : Fp pd en (ret a).
  Proof. intros s. unfold Fps. cbn. split; [reflexivity|]. split; [discriminate|auto]. Qed.
  Lemma Fp_panics {A} p : Fp pd en (@panics S A p).
  Proof. intros s. unfold Fps. cbn. split; [reflexivity|]. split; [discriminate|auto]. Qed.
  Lemma Fp_fail {A} e : (match e with EIo _ => False | _ => True end) -> Fp pd en (@fail S A e).
  Proof. intros H s. unfold Fps. cbn. destruct e; try contradiction; (split; [reflexivity|]; split; [discriminate|auto]). Qed.
  Lemma Fp_get : Fp pd en get.
  Proof. intros s. unfold Fps. cbn. split; [reflexivity|]. split; [discriminate|auto]. Qed.
  Lemma Fp_gets {A} (f : S -> A) : Fp pd en (gets f).
  Proof. intros s. unfold Fps. cbn. split; [reflexivity|]. split; [discriminate|auto]. Qed.
  Lemma Fp_modify f : (forall s, pd (f s) = pd s /\ en (f s) = en s) -> Fp pd en (modify f).
  Proof. intros H s. unfold Fps. cbn. destruct (H s) as [-> ->]. split; [reflexivity|]. split; [discriminate|auto]. Qed.
  Lemma Fps_bind {A B} (m : M S A) (k : A -> M S B) s : Fps pd en m s -> (forall a s', Fps pd en (k a) s') -> Fps pd en (bind m k) s.
  Proof.
    intros Hm Hk. unfold Fps, bind in *. destruct (m s) as [[a|e|p|] s1]; cbn [fst snd reported app] in *.
    - destruct (Hk a s1) as (K1 & K2 & K3). destruct Hm as (-> & _ & M3). auto.
    - destruct Hm as (M1 & M2 & M3). split; [exact M1|]. split; [|exact M3]. intros E. apply M2. injection E as ->. reflexivity.
    - destruct Hm as (M1 & M2 & M3). split; [exact M1|]. split; [discriminate|exact M3].
    - destruct Hm as (M1 & M2 & M3). split; [exact M1|]. split; [discriminate|exact M3].
  Qed.
  Lemma Fps_get {A} (k : S -> M S A) s : Fps pd en (k s) s -> Fps pd en (bind get k) s.
  Proof. exact (fun H => H). Qed.
  Lemma Fp_bind {A B} (m : M S A) (k : A -> M S B) : Fp pd en m -> (forall a, Fp pd en (k a)) -> Fp pd en (bind m k).
  Proof. intros Hm Hk s. apply Fps_bind; [apply Hm|]. intros a s'. apply Hk. Qed.
  Lemma Fp_loopM {A B} (body : A -> M S (A + B)) : (forall a, Fp pd en (body a)) -> forall n a, Fp pd en (loopM n body a).
  Proof.
    intros Hb. induction n as [|n IH]; intros a; cbn [loopM].
    - intros s. unfold Fps. cbn. split; [reflexivity|]. split; [discriminate|auto].
    - apply Fp_bind; [apply Hb|]. intros [a'|b]; [apply IH|apply Fp_ret].
  Qed.
End rules.

(** A raw step that returns no I/O error and leaves the stream and the encoding alone. *)
Lemma Fp_raw {S A} (pd : S -> list N) (en : S -> encoding) (m : M S A) :
  (forall s, (match fst (m s) with Err (EIo _) => False | _ => True end) /\ pd (snd (m s)) = pd s /\ en (snd (m s)) = en s) -> Fp pd en m.
Proof.
  intros H s. destruct (H s) as (H1 & H2 & H3). unfold Fps. rewrite H2, H3. destruct (fst (m s)) as [a|e|p|]; cbn [reported app].
  - split; [reflexivity|]. split; [discriminate|auto].
  - destruct e; try contradiction; (split; [reflexivity|]; split; [discriminate|auto]).
  - split; [reflexivity|]. split; [discriminate|auto].
  - split; [reflexivity|]. split; [discriminate|auto].
Qed.

Notation FS := (Fp pend enc).

Lemma Fp_loop {A B} (body : A -> M sst (A + B)) a : (forall a, FS (body a)) -> FS (loop body a).
Proof. intros H s. unfold loop. apply (Fp_loopM pend enc body H). Qed.

(** ** The stream operations *)
Definition ioF {A} (f : source -> (A + ioerr) * source) : Prop := forall i,
  match f i with
  | (inl _, i') => io_failures i' = io_failures i
  | (inr (OtherIo k), i') => io_failures i = k :: io_failures i'
  | (inr UnexpectedEof, i') => io_failures i' = io_failures i
  | (inr Interrupted, i') => False
  end.
Lemma Fp_io {A} (f : source -> (A + ioerr) * source) : ioF f -> FS (io f).
Proof.
  intros H s. unfold Fps, io. destruct (src s) as [i|] eqn:Ei.
  - specialize (H i). unfold pend. rewrite Ei. destruct (f i) as [[a|[| |k]] i']; cbn; try contradiction;
      (split; [auto|]; split; [discriminate|auto]).
  - cbn. split; [reflexivity|]. split; [discriminate|auto].
Qed.
Lemma consume_F n : ioF (fun i => (inl tt, consume n i)).
Proof. intros i. reflexivity. Qed.
Lemma read_exact_go_F evs : forall n acc cur,
  match read_exact_go evs n acc cur with
  | (inl _, i') => io_failures i' = io_failures (Mk_source cur evs)
  | (inr (OtherIo k), i') => io_failures (Mk_source cur evs) = k :: io_failures i'
  | (inr UnexpectedEof, i') => io_failures i' = io_failures (Mk_source cur evs)
  | (inr Interrupted, i') => False
  end.
Proof.
  induction evs as [|ev evs IH]; intros n acc cur; cbn [read_exact_go].
  - destruct (Nat.eqb _ n); reflexivity.
  - destruct (Nat.eqb _ n); [reflexivity|]. destruct ev as [[|b l]| |k]; try reflexivity.
    + specialize (IH (n - length (firstn n cur))%nat (acc ++ firstn n cur) (b :: l)).
      destruct (read_exact_go _ _ _ _) as [[x|[| |k]] i']; exact IH.
    + specialize (IH (n - length (firstn n cur))%nat (acc ++ firstn n cur) []).
      destruct (read_exact_go _ _ _ _) as [[x|[| |k]] i']; exact IH.
Qed.
Lemma read_exact_F n : ioF (read_exact n).
Proof. intros [cur evs]. unfold read_exact. cbn [s_cur s_evs]. apply read_exact_go_F. Qed.
Lemma fill_buf_retry_F : ioF fill_buf_retry.
Proof.
  intros [cur evs]. unfold fill_buf_retry. cbn [s_cur s_evs]. destruct cur as [|b cur]; [|reflexivity].
  induction evs as [|[l| |k] evs IH]; cbn [fill_buf_retry_go]; try reflexivity.
  destruct (fill_buf_retry_go evs) as [[x|[| |k]] i']; exact IH.
Qed.

Create HintDb fp.
Ltac fp_step :=
  match goal with
  | |- Fp _ _ (ret _) => apply Fp_ret
  | |- Fp _ _ (panics _) => apply Fp_panics
  | |- Fp _ _ (fail _) => apply Fp_fail; exact I
  | |- Fp _ _ get => apply Fp_get
  | |- Fp _ _ (gets _) => apply Fp_gets
  | |- Fp _ _ (bind _ _) => apply Fp_bind; [|intros ?]
  | |- Fp _ _ (loop _ _) => apply Fp_loop; intros ?
  | |- Fp _ _ (modify _) => apply Fp_modify; intros ?; split; reflexivity
  | |- Fp _ _ (match ?x with _ => _ end) => destruct x
  | |- Fp _ _ (when _ _) => unfold when
  | |- Fp _ _ (let '(_, _) := ?x in _) => destruct x
  | |- Fp _ _ (scan_error _ _ _) => unfold scan_error
  | |- _ => solve [auto with fp]
  end.
Ltac fp := repeat fp_step.

(** ** Reader *)
Lemma push_char_F c off : FS (push_char c off).
Proof. apply Fp_raw. intros s. unfold push_char. destruct (allowed_char c); cbn; auto. Qed.
#[export] Hint Resolve push_char_F : fp.
Lemma push_chars_utf8_F cs : FS (push_chars_utf8 cs).
Proof. induction cs; cbn [push_chars_utf8]; fp. Qed.
Lemma push_chars_utf16_F cs : forall used, FS (push_chars_utf16 cs used).
Proof. induction cs; intros used; cbn [push_chars_utf16]; fp. Qed.
#[export] Hint Resolve push_chars_utf8_F push_chars_utf16_F : fp.
Lemma io_re_F n : FS (io (read_exact n)). Proof. apply Fp_io, read_exact_F. Qed.
Lemma io_fb_F : FS (io fill_buf_retry). Proof. apply Fp_io, fill_buf_retry_F. Qed.
Lemma consume_m_F n : FS (consume_m n). Proof. apply Fp_io, consume_F. Qed.
#[export] Hint Resolve io_re_F io_fb_F consume_m_F : fp.
Lemma read_more_F : FS read_more.
Proof.
  assert (H16 : forall be, FS (read_utf16_char_unbuffered be)) by (intros; unfold read_utf16_char_unbuffered; cbn zeta; fp).
  assert (H8 : forall b, FS (read_utf8_char_unbuffered b)) by (intros; unfold read_utf8_char_unbuffered; cbn zeta; fp).
  unfold read_more, read_utf8_buffered, read_utf16_buffered. cbn zeta. fp; auto.
Qed.
#[export] Hint Resolve read_more_F : fp.
Lemma fill_loop_F n : FS (fill_loop n).
Proof. unfold fill_loop. fp. Qed.
#[export] Hint Resolve fill_loop_F : fp.

(** Determining the encoding is the one place where Interrupted is not retried. *)
Lemma determine_encoding_F : forall s, enc s = EncAny -> forall r s', determine_encoding s = (r, s') ->
  pend s = reported r ++ pend s' /\ enc s' = EncAny.
Proof.
  intros s He r s'. unfold determine_encoding.
  assert (H1 : forall r1 s1, io fill_buf s = (r1, s1) -> pend s = reported r1 ++ pend s1 /\ enc s1 = EncAny).
  { intros r1 s1. unfold io, pend. destruct (src s) as [i|] eqn:Ei; [|intros [= <- <-]; rewrite Ei; auto].
    unfold fill_buf. destruct i as [[|b cur] evs]; cbn [s_cur s_evs]; [destruct evs as [|[l| |k] evs]|]; intros [= <- <-]; cbn; auto. }
  assert (H2 : forall n s1 r2 s2, io (read_exact n) s1 = (r2, s2) -> enc s1 = EncAny -> pend s1 = reported r2 ++ pend s2 /\ enc s2 = EncAny).
  { intros n s1 r2 s2 E E1. pose proof (io_re_F n s1) as (F1 & _ & _). rewrite E in F1. cbn [fst snd] in F1. split; [exact F1|].
    unfold io in E. destruct (src s1); [|injection E as _ <-; exact E1]. destruct (read_exact n s0) as [[]]; injection E as _ <-; exact E1. }
  unfold bind at 1. destruct (io fill_buf s) as [[l|e|p|] s1] eqn:E1; destruct (H1 _ _ eq_refl) as [P1 Q1]; try (intros [= <- <-]; auto).
  cbn [reported app] in P1. rewrite P1. clear H1 P1 E1.
  destruct l as [|b l]; [intros [= <- <-]; auto|]. destruct (b =? 239).
  - unfold bind. destruct (io (read_exact 3) s1) as [[bm|e|p|] s2] eqn:E2; destruct (H2 _ _ _ _ E2 Q1) as [P2 Q2]; try (intros [= <- <-]; auto).
    rewrite P2. destruct (bytes_eqb bm [239; 187; 191]); intros [= <- <-]; auto.
  - destruct ((b =? 255) || (b =? 254)); [|intros [= <- <-]; auto].
    unfold bind. destruct (io (read_exact 2) s1) as [[bm|e|p|] s2] eqn:E2; destruct (H2 _ _ _ _ E2 Q1) as [P2 Q2]; try (intros [= <- <-]; auto).
    rewrite P2. destruct (bytes_eqb bm [255; 254]); [intros [= <- <-]; auto|]. destruct (bytes_eqb bm [254; 255]); intros [= <- <-]; auto.
Qed.
Lemma update_buffer_F n : FS (update_buffer n).
Proof.
  intros s. unfold update_buffer. apply Fps_get. destruct (src s); [|apply Fp_panics]. destruct (Nat.leb n (length (buffer s))); [apply Fp_ret|].
  apply Fps_bind.
  2:{ intros done. change (FS (if done then ret tt else early <- fill_loop n;; (if early : bool then ret tt else
         off <- gets offset;; (if 9223372036854775807 <=? off then fail (EReader "input is too long" off (-1)) else ret tt)))). fp. }
  destruct (encoding_eqb (enc s) EncAny) eqn:He; [|apply Fp_ret].
  assert (E : enc s = EncAny) by (destruct (enc s); try discriminate He; reflexivity).
  pose proof (determine_encoding_F s E) as D. unfold Fps, bind. destruct (determine_encoding s) as [[o|e|p|] s1]; destruct (D _ _ eq_refl) as [P1 Q1].
  - cbn [reported app] in P1. destruct o as [e|]; cbn; (split; [exact P1|]; split; [discriminate|]; intros H; destruct (H E)).
  - split; [exact P1|]. split; [auto|]. intros H. destruct (H E).
  - split; [exact P1|]. split; [discriminate|]. intros H. destruct (H E).
  - split; [exact P1|]. split; [discriminate|]. intros H. destruct (H E).
Qed.
#[export] Hint Resolve update_buffer_F : fp.
Lemma cache_F n : FS (cache n).
Proof. unfold cache. fp. Qed.
#[export] Hint Resolve cache_F : fp.

(** ** Scanner *)
Ltac raw := apply Fp_raw; intros s.
Lemma skip_char_F : FS skip_char.
Proof. raw. unfold skip_char. destruct (buffer s); cbn; auto. Qed.
Lemma read_char_F x : FS (read_char x).
Proof. raw. unfold read_char. destruct (buffer s); cbn; auto. Qed.
Lemma skip_line_break_F : FS skip_line_break.
Proof. raw. unfold skip_line_break. destruct (buffer s); [cbn; auto|]. destruct (_ && _); [cbn; auto|]. destruct (is_break_c _); cbn; auto. Qed.
Lemma read_line_break_F x : FS (read_line_break x).
Proof. raw. unfold read_line_break. destruct (buffer s); [cbn; auto|]. destruct (_ && _); [cbn; auto|]. destruct (is_break_c _); cbn; auto. Qed.
Lemma insert_token_F n t : FS (insert_token n t).
Proof. raw. unfold insert_token. cbn zeta. destruct (_ <? _); [cbn; auto|]. destruct (Nat.leb _ _); cbn; auto. Qed.
Lemma stale_simple_keys_F : FS stale_simple_keys.
Proof. raw. unfold stale_simple_keys. destruct (stale_keys _ _) as [ks [m|]]; cbn; auto. Qed.
Lemma remove_simple_key_F : FS remove_simple_key.
Proof. raw. unfold remove_simple_key. destruct (simple_keys s); [cbn; auto|]. destruct (_ && _); cbn; auto. Qed.
Lemma unroll_indent_F c : FS (unroll_indent c).
Proof. raw. unfold unroll_indent. destruct (negb _); [cbn; auto|]. destruct (unroll_go _ _ _ _ _) as [[[[p|] i] st] toks]; cbn; auto. Qed.
#[export] Hint Resolve skip_char_F read_char_F skip_line_break_F read_line_break_F insert_token_F stale_simple_keys_F remove_simple_key_F unroll_indent_F : fp.
Lemma skip_chars_F n : FS (skip_chars n).
Proof. induction n; cbn [skip_chars]; fp. Qed.
#[export] Hint Resolve skip_chars_F : fp.
Ltac u f := unfold f; cbn zeta; fp.
Lemma skip_while_F c : FS (skip_while c). Proof. u skip_while. Qed.
Lemma read_while_F c x : FS (read_while c x). Proof. u read_while. Qed.
Lemma push_token_F d a b : FS (push_token d a b). Proof. u push_token. Qed.
#[export] Hint Resolve skip_while_F read_while_F push_token_F : fp.
Lemma save_simple_key_F : FS save_simple_key.
Proof. u save_simple_key. raw. destruct (simple_keys s); cbn; auto. Qed.
Lemma increase_flow_level_F : FS increase_flow_level. Proof. u increase_flow_level. Qed.
Lemma decrease_flow_level_F : FS decrease_flow_level.
Proof. unfold decrease_flow_level. apply Fp_modify. intros s. destruct (_ =? _); cbn; auto. Qed.
Lemma roll_indent_F a b c d : FS (roll_indent a b c d). Proof. u roll_indent. Qed.
#[export] Hint Resolve save_simple_key_F increase_flow_level_F decrease_flow_level_F roll_indent_F : fp.
Lemma fetch_indicator_F n d : FS (fetch_indicator n d). Proof. u fetch_indicator. Qed.
#[export] Hint Resolve fetch_indicator_F : fp.
Lemma scan_to_next_token_F : FS scan_to_next_token.
Proof. u scan_to_next_token. apply Fp_modify. intros s. destruct (_ =? _); cbn; auto. Qed.
Lemma scan_directive_name_F m : FS (scan_directive_name m). Proof. u scan_directive_name. Qed.
Lemma scan_version_directive_number_F m : FS (scan_version_directive_number m). Proof. u scan_version_directive_number. Qed.
#[export] Hint Resolve scan_to_next_token_F scan_directive_name_F scan_version_directive_number_F : fp.
Lemma scan_version_directive_value_F m : FS (scan_version_directive_value m). Proof. u scan_version_directive_value. Qed.
Lemma scan_tag_handle_F d m : FS (scan_tag_handle d m). Proof. u scan_tag_handle. Qed.
Lemma scan_uri_escapes_F d m x : FS (scan_uri_escapes d m x). Proof. u scan_uri_escapes. Qed.
#[export] Hint Resolve scan_version_directive_value_F scan_tag_handle_F scan_uri_escapes_F : fp.
Lemma scan_tag_uri_F a d h m : FS (scan_tag_uri a d h m). Proof. u scan_tag_uri. Qed.
#[export] Hint Resolve scan_tag_uri_F : fp.
Lemma scan_tag_directive_value_F m : FS (scan_tag_directive_value m). Proof. u scan_tag_directive_value. Qed.
#[export] Hint Resolve scan_tag_directive_value_F : fp.
Lemma scan_directive_F : FS scan_directive. Proof. u scan_directive. Qed.
Lemma scan_anchor_F a : FS (scan_anchor a). Proof. u scan_anchor. Qed.
Lemma scan_tag_F : FS scan_tag. Proof. u scan_tag. Qed.
Lemma scan_block_scalar_breaks_F a b c d : FS (scan_block_scalar_breaks a b c d). Proof. u scan_block_scalar_breaks. Qed.
Lemma scan_block_header_F m : FS (scan_block_header m). Proof. unfold scan_block_header. cbn zeta. unfold scan_block_header_digit. fp. Qed.
#[export] Hint Resolve scan_directive_F scan_anchor_F scan_tag_F scan_block_scalar_breaks_F scan_block_header_F : fp.
Lemma block_scalar_lines_F a b c d e : FS (block_scalar_lines a b c d e). Proof. u block_scalar_lines. Qed.
#[export] Hint Resolve block_scalar_lines_F : fp.
Lemma scan_block_scalar_F l : FS (scan_block_scalar l). Proof. u scan_block_scalar. Qed.
Lemma scan_escape_F m x : FS (scan_escape m x). Proof. u scan_escape. Qed.
#[export] Hint Resolve scan_block_scalar_F scan_escape_F : fp.
Lemma flow_scalar_text_F a b c : FS (flow_scalar_text a b c). Proof. u flow_scalar_text. Qed.
Lemma flow_scalar_blanks_F a b c d : FS (flow_scalar_blanks a b c d). Proof. u flow_scalar_blanks. Qed.
#[export] Hint Resolve flow_scalar_text_F flow_scalar_blanks_F : fp.
Lemma scan_flow_scalar_F a : FS (scan_flow_scalar a). Proof. u scan_flow_scalar. Qed.
Lemma plain_text_F a b : FS (plain_text a b). Proof. u plain_text. Qed.
Lemma plain_blanks_F a b c : FS (plain_blanks a b c). Proof. u plain_blanks. Qed.
#[export] Hint Resolve scan_flow_scalar_F plain_text_F plain_blanks_F : fp.
Lemma scan_plain_scalar_F : FS scan_plain_scalar. Proof. u scan_plain_scalar. Qed.
Lemma push_scanned_F m : FS m -> FS (push_scanned m). Proof. intros H. u push_scanned. Qed.
#[export] Hint Resolve scan_plain_scalar_F push_scanned_F : fp.
Lemma fetch_next_token_F : FS fetch_next_token.
Proof.
  unfold fetch_next_token. cbn zeta. fp; try (unfold fetch_stream_start, fetch_stream_end, fetch_directive, fetch_document_indicator,
    fetch_flow_collection_start, fetch_flow_collection_end, fetch_flow_entry, fetch_block_entry, fetch_key, fetch_value, fetch_anchor, fetch_tag,
    fetch_block_scalar, fetch_flow_scalar, fetch_plain_scalar; fp; fail).
  - unfold fetch_stream_end. fp. apply Fp_modify. intros s. destruct (_ =? _); cbn; auto.
Qed.
#[export] Hint Resolve fetch_next_token_F : fp.
Lemma fetch_more_tokens_F : FS fetch_more_tokens.
Proof. unfold fetch_more_tokens. fp. intros s. apply Fp_loopM. intros ?. fp. Qed.
#[export] Hint Resolve fetch_more_tokens_F : fp.
Lemma scan_F : FS scan.
Proof. unfold scan. fp. raw. destruct (tokens s); [cbn; auto|]. cbn. destruct (is_stream_end t); cbn; auto. Qed.
#[export] Hint Resolve scan_F : fp.
Lemma scanner_next_F : FS scanner_next. Proof. unfold scanner_next. fp. Qed.
Lemma peek_F : FS peek. Proof. unfold peek. fp. Qed.
Lemma skip_token_F : FS skip_token.
Proof. raw. unfold skip_token. cbn zeta. cbn [tokens set_tokens_parsed set_token_available]. destruct (tokens s); cbn; auto. Qed.
Lemma set_front_F d : FS (set_front d).
Proof. apply Fp_modify. intros s. destruct (tokens s); cbn; auto. Qed.
#[export] Hint Resolve scanner_next_F peek_F skip_token_F set_front_F : fp.

(** ** Parser *)
Definition ppend (p : pst) : list N := pend (sc p).
Definition penc (p : pst) : encoding := enc (sc p).
Notation FPp := (Fp ppend penc).
Lemma on_sc_F {A} (m : M sst A) : FS m -> FPp (on_sc m).
Proof. intros H p. specialize (H (sc p)). unfold Fps, on_sc, ppend, penc in *. destruct (m (sc p)) as [r s']. exact H. Qed.
Lemma ppeek_F : FPp ppeek. Proof. apply on_sc_F, peek_F. Qed.
Lemma pskip_F : FPp pskip. Proof. apply on_sc_F, skip_token_F. Qed.
Lemma pset_front_F d : FPp (on_sc (set_front d)). Proof. apply on_sc_F, set_front_F. Qed.
Lemma pop_state_F : FPp pop_state. Proof. raw. unfold pop_state. destruct (states s); cbn; auto. Qed.
Lemma pop_mark_F : FPp pop_mark. Proof. raw. unfold pop_mark. destruct (marks s); cbn; auto. Qed.
#[export] Hint Resolve ppeek_F pskip_F pset_front_F pop_state_F pop_mark_F : fp.
Lemma append_tag_directive_F a b c : FPp (append_tag_directive a b c). Proof. u append_tag_directive. Qed.
#[export] Hint Resolve append_tag_directive_F : fp.
Lemma directives_loop_F : FPp directives_loop.
Proof. intros p. apply Fp_loopM. intros [vd tds]. fp. Qed.
Lemma skip_document_ends_F : FPp skip_document_ends.
Proof. intros p. apply Fp_loopM. intros a. fp. Qed.
#[export] Hint Resolve directives_loop_F skip_document_ends_F : fp.
Lemma process_directives_F : FPp process_directives. Proof. u process_directives. Qed.
Lemma parse_properties_F t : FPp (parse_properties t). Proof. u parse_properties. Qed.
Lemma resolve_tag_F a b c : FPp (resolve_tag a b c). Proof. u resolve_tag. Qed.
#[export] Hint Resolve process_directives_F parse_properties_F resolve_tag_F : fp.
Ltac pf := fp; try (unfold pop_state, push_state, goto, drop_mark, push_mark, enter_collection, leave_collection, collection_error, flow_separator; fp; fail).
Lemma push_state_F x : FPp (push_state x). Proof. u push_state. Qed.
Lemma goto_F x : FPp (goto x). Proof. u goto. Qed.
Lemma drop_mark_F : FPp drop_mark. Proof. u drop_mark. Qed.
Lemma push_mark_F x : FPp (push_mark x). Proof. u push_mark. Qed.
#[export] Hint Resolve push_state_F goto_F drop_mark_F push_mark_F : fp.
Lemma enter_collection_F x : FPp (enter_collection x). Proof. u enter_collection. Qed.
Lemma leave_collection_F x t : FPp (leave_collection x t). Proof. u leave_collection. Qed.
Lemma collection_error_F a b t : FPp (collection_error a b t). Proof. u collection_error. Qed.
Lemma flow_separator_F a b c t : FPp (flow_separator a b c t). Proof. u flow_separator. Qed.
Lemma parse_node_content_F a b t : FPp (parse_node_content a b t). Proof. u parse_node_content. Qed.
#[export] Hint Resolve parse_node_content_F : fp.
Lemma parse_node_F a b : FPp (parse_node a b). Proof. u parse_node. Qed.
#[export] Hint Resolve enter_collection_F leave_collection_F collection_error_F flow_separator_F parse_node_F : fp.
Lemma parse_F : FPp parse.
Proof.
  unfold parse, state_machine. fp; unfold parse_stream_start, parse_document_start, parse_document_content, parse_document_end, parse_block_sequence_entry,
    parse_indentless_sequence_entry, parse_block_mapping_key, parse_block_mapping_value, parse_flow_sequence_entry,
    parse_flow_sequence_entry_mapping_key, parse_flow_sequence_entry_mapping_value, parse_flow_sequence_entry_mapping_end,
    parse_flow_mapping_key, parse_flow_mapping_value; fp.
Qed.
#[export] Hint Resolve parse_F : fp.
Lemma parser_next_F : FPp parser_next. Proof. u parser_next. Qed.

(** ** Loading *)
Definition lpend (l : lst) : list N := ppend (l_parser l).
Definition lenc (l : lst) : encoding := penc (l_parser l).
Notation FL := (Fp lpend lenc).
Lemma on_parser_F {A} (m : M pst A) : FPp m -> FL (on_parser m).
Proof. intros H p. specialize (H (l_parser p)). unfold Fps, on_parser, lpend, lenc in *. destruct (m (l_parser p)) as [r s']. exact H. Qed.
Lemma parse_FL : FL (on_parser parse). Proof. apply on_parser_F, parse_F. Qed.
#[export] Hint Resolve parse_FL : fp.
Lemma register_anchor_F a b : FL (register_anchor a b).
Proof. u register_anchor. apply on_parser_F. fp. Qed.
Lemma load_node_add_F a : FL (load_node_add a). Proof. u load_node_add. Qed.
#[export] Hint Resolve register_anchor_F load_node_add_F : fp.
Lemma load_event_F e : FL (load_event e).
Proof. unfold load_event, load_alias, load_push, push_ctx, load_end. cbn zeta. fp. Qed.
#[export] Hint Resolve load_event_F : fp.
Lemma load_document_F e : FL (load_document e).
Proof. unfold load_document, load_nodes. fp. intros l. apply Fp_loopM. intros ?. fp. Qed.
Lemma load_F : FPp load.
Proof.
  intros p. unfold load. cbn zeta. 
  assert (K : FPp load_rest).
  { intros p0. unfold load_rest. destruct (stream_end_produced (sc p0)) eqn:Es.
    { unfold Fps. rewrite Es. split; [reflexivity|]. split; [discriminate|auto]. }
    pose proof (parse_F p0) as F. unfold Fps in F |- *. rewrite Es. destruct (parse p0) as [[e|x|x|] p1]; cbn [fst snd reported app] in *; destruct F as (F1 & F2 & F3).
    - destruct (e_data e); try (split; [exact F1|]; split; [discriminate|exact F3]);
      pose proof (load_document_F e (Mk_lst p1 (document_new None [] false false) [])) as L; unfold Fps in L;
      (destruct (load_document e _) as [[e'|x|x|] l]; cbn [fst snd reported app] in *; destruct L as (L1 & L2 & L3);
       unfold lpend, lenc in *; cbn [l_parser] in *; rewrite F1;
       [split; [exact L1|]; split; [discriminate|auto]
       |split; [exact L1|]; split; [|auto]; intros E; apply L2; injection E as ->; reflexivity
       |split; [exact L1|]; split; [discriminate|auto]
       |split; [exact L1|]; split; [discriminate|auto]]).
    - split; [exact F1|]. split; [|exact F3]. intros E. apply F2. injection E as ->. reflexivity.
    - split; [exact F1|]. split; [discriminate|exact F3].
    - split; [exact F1|]. split; [discriminate|exact F3]. }
  destruct (stream_start_produced (sc p)) eqn:Es.
  { specialize (K p). unfold Fps in *. rewrite Es. exact K. }
  pose proof (parse_F p) as F. unfold Fps in F |- *. rewrite Es. destruct (parse p) as [[e|x|x|] p1]; cbn [fst snd reported app] in *; destruct F as (F1 & F2 & F3).
  - specialize (K p1). unfold Fps in K. destruct K as (K1 & K2 & K3).
    destruct (e_data e); try (split; [exact F1|]; split; [discriminate|exact F3]).
    rewrite F1. split; [exact K1|]. split; [exact K2|auto].
  - split; [exact F1|]. split; [|exact F3]. intros E. apply F2. injection E as ->. reflexivity.
  - split; [exact F1|]. split; [discriminate|exact F3].
  - split; [exact F1|]. split; [discriminate|exact F3].
Qed.
