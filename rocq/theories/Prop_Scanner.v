(** Prop_Scanner.v -- C03 to C08 and C39: properties of every session of the scanner.

    A session starts from a scanner that was given an arbitrary input stream [i] (any bytes, any
    chunks, any I/O failures) and possibly an encoding [e].  A history is any list of outcomes in
    which no call panicked; errors may occur anywhere and the caller may go on after them. *)
From Coq Require Import ZifyBool ZifyNat ZifyN.
From Verif Require Import Base Utf Chars State Reader Scanner Api Wp ReaderFacts Spec_Tokens ScanFacts TokFacts FetchFacts FetchWp FetchLoop FlowFacts Spec_Scanner SessionFacts.

Lemma Wok_wf : Wok token_wf. Proof. intros d H. exact H. Qed.

(** ** C03 (first half): only characters allowed by YAML are in the scanner's buffer. *)
Theorem C03_only_allowed_characters : forall dbg e i cs os s,
  session cs (scanner_start dbg e i) = (os, s) -> Forall returned os ->
  Forall yaml_char (buffer s).
Proof.
  intros dbg e i cs os s H Hr. destruct (session_inv _ Wok_wf _ _ _ _ _ (SInv_start _ dbg e i) H Hr) as (d & I & _).
  eapply Forall_impl; [|apply (si_okc _ _ _ I)]. intros c Hc. unfold okc, allowed_char, in_range in Hc. unfold yaml_char. lia.
Qed.
Print Assumptions C03_only_allowed_characters.

(** ** C04: every call returns, and panics only at the known sites. *)
(** After any history. *)
Theorem C04_every_call_returns : forall dbg e i cs os s c,
  session cs (scanner_start dbg e i) = (os, s) -> Forall returned os ->
  match fst (invoke c s) with
  | Ok _ | Err _ => True
  | Panic p => known_panic dbg p \/ overflow_panic p
  | Fuel => False
  end.
Proof.
  intros dbg e i cs os s c H Hr. destruct (session_inv _ Wok_wf _ _ _ _ _ (SInv_start _ dbg e i) H Hr) as (d & I & D & _).
  destruct (stream_end_produced s) eqn:Es; [rewrite invoke_ended by exact Es; exact Logic.I|].
  rewrite invoke_next by exact Es. pose proof (scanner_next_f _ _ s Wok_wf I) as F. unfold FW, wp in F.
  destruct (scanner_next s) as [[o|er|p|] s1]; cbn [fst]; auto.
  destruct F as [F|[F _]].
  - left. rewrite D in F. destruct F as [->|[->|[->|[-> F]]]]; try exact Logic.I. exact F.
  - right. destruct F as [-> | ->]; exact Logic.I.
Qed.
(** Before the first error, and if the input is shorter than 2^31 bytes, the counters cannot
    overflow either. *)
Theorem C04_no_overflow_below_2GiB : forall dbg e i cs os s c p,
  session cs (scanner_start dbg e i) = (os, s) -> Forall succeeded os ->
  N.of_nat (length (all_bytes i)) < 2147483648 ->
  fst (invoke c s) = Panic p -> known_panic dbg p.
Proof.
  intros dbg e i cs os s c p H Hr Hn Hp.
  assert (Hr' : Forall returned os) by (eapply Forall_impl; [|exact Hr]; intros [] Ha; exact Ha || contradiction).
  destruct (session_inv _ Wok_wf _ _ _ _ _ (SInv_start _ dbg e i) H Hr') as (d & I & D & _).
  pose proof (session_prog _ Wok_wf _ _ _ _ _ (SInv_start _ dbg e i) H Hr) as P.
  pose proof (bnd_start dbg e i 2147483647 ltac:(lia)) as B. apply (pg_bnd _ _ _ P) in B.
  destruct (stream_end_produced s) eqn:Es; [rewrite invoke_ended in Hp by exact Es; discriminate|].
  rewrite invoke_next in Hp by exact Es. pose proof (scanner_next_f _ _ s Wok_wf I) as F. unfold FW, wp in F.
  destruct (scanner_next s) as [[o|er|p'|] s1]; cbn [fst] in Hp; try discriminate. injection Hp as ->.
  destruct F as [F|[_ F]].
  - rewrite D in F. destruct F as [->|[->|[->|[-> F]]]]; try exact Logic.I. exact F.
  - exfalso. apply (F 2147483647); [lia|exact B].
Qed.
(** And the iterator reaches the end of the stream (or an error): at most four tokens per byte
    and read operation of the input, plus eight. *)
Theorem C04_iterator_ends : forall dbg e i n os s,
  calls scanner_next n (scanner_start dbg e i) = (os, s) -> Forall succeeded os ->
  (length (tokens_of os) <= 4 * (length (all_bytes i) + length (s_evs i)) + 8)%nat /\
  (4 * (length (all_bytes i) + length (s_evs i)) + 8 < n ->
     existsb is_stream_end_token (tokens_of os) = true)%nat.
Proof.
  intros dbg e i n os s H Hr.
  assert (Hr' : Forall returned os) by (eapply Forall_impl; [|exact Hr]; intros [] Ha; exact Ha || contradiction).
  destruct (next_phi _ Wok_wf _ _ _ _ _ (SInv_start _ dbg e i) H Hr) as [J1 J2].
  destruct (next_inv _ Wok_wf _ _ _ _ _ (SInv_start _ dbg e i) H Hr') as [I _]. cbn [app] in I.
  assert (Hm : meas (scanner_start dbg e i) = (length (all_bytes i) + length (s_evs i))%nat).
  { rewrite all_bytes_len. unfold meas, scanner_start, scanner_on, scanner_new. fld. rewrite src_size_eq. unfold src_bytes.
    cbn [length]. rewrite Nat.add_0_l, <- Nat.add_assoc. f_equal. induction (s_evs i) as [|x r IH]; [reflexivity|].
    rewrite evs_size_cons, evs_bytes_cons, IH. destruct x; cbn [ev_bytes length]; lia. }
  assert (Hp : (phi (scanner_start dbg e i) = 4 * Z.of_nat (length (all_bytes i) + length (s_evs i)) + 8)%Z).
  { unfold phi, mu. rewrite Hm. unfold ti, ended, scanner_start, scanner_on, scanner_new. fld. cbn [length existsb orb negb b2z]. lia. }
  assert (0 <= phi s)%Z by (unfold phi, ti; pose proof (mu_nonneg s); lia).
  split; [lia|]. intros Hn. specialize (J2 ltac:(lia)). rewrite (si_ended _ _ _ I) in J2. exact J2.
Qed.
Print Assumptions C04_every_call_returns.
Print Assumptions C04_no_overflow_below_2GiB.
Print Assumptions C04_iterator_ends.

(** ** C05: stream framing. *)
Theorem C05_first_token : forall dbg e i n os s,
  calls scanner_next n (scanner_start dbg e i) = (os, s) -> Forall returned os ->
  match tokens_of os with
  | [] => True
  | t :: r => is_stream_start_token t = true /\ Forall (fun u => is_stream_start_token u = false) r
  end.
Proof.
  intros dbg e i n os s H Hr. destruct (next_inv _ Wok_wf _ _ _ _ _ (SInv_start _ dbg e i) H Hr) as [I _]. cbn [app] in I.
  destruct (stream_start_produced s) eqn:E.
  - destruct (si_head _ _ _ I E) as (t & rest & E1 & E2 & E3). unfold all in E1. destruct (tokens_of os) as [|t' r]; [exact Logic.I|].
    cbn [app] in E1. injection E1 as -> <-. split; [exact E2|]. apply Forall_app in E3. apply E3.
  - destruct (si_fresh _ _ _ I E) as (_ & _ & H0 & _). unfold all in H0. apply app_eq_nil in H0. destruct H0 as [-> _]. exact Logic.I.
Qed.
(** Nothing comes after STREAM-END, and the iterator ends only there. *)
Theorem C05_after_stream_end : forall dbg e i n os s,
  calls scanner_next n (scanner_start dbg e i) = (os, s) -> Forall returned os ->
  (forall a o b, os = a ++ o :: b -> existsb is_stream_end_token (token_of o) = true -> Forall (fun x => x = Ok None) b) /\
  (forall a b, os = a ++ Ok None :: b -> existsb is_stream_end_token (tokens_of a) = true).
Proof.
  intros dbg e i n. intros os s H Hr.
  assert (Hsplit : forall a b, os = a ++ b -> exists s1, calls scanner_next (length a) (scanner_start dbg e i) = (a, s1)
            /\ calls scanner_next (length b) s1 = (b, s)).
  { clear Hr. revert os s H. generalize (scanner_start dbg e i). induction n as [|n IH]; intros s0 os s; cbn [calls].
    - intros [= <- <-] a b E. symmetry in E. apply app_eq_nil in E. destruct E as [-> ->]. exists s0. auto.
    - destruct (scanner_next s0) as [r s1] eqn:E1. destruct (calls scanner_next n s1) as [l s2] eqn:E2. intros [= <- <-] a b E.
      destruct a as [|x a].
      + exists s0. split; [reflexivity|]. cbn [app] in E. subst b. cbn [length calls]. rewrite E1.
        assert (length l = n) as Hl.
        { clear - E2. revert s1 l s2 E2. induction n as [|n IH]; intros s1 l s2; cbn [calls]; [intros [= <- <-]; reflexivity|].
          destruct (scanner_next s1) as [r1 t1]. destruct (calls scanner_next n t1) as [l1 t2] eqn:E. intros [= <- <-]. cbn. f_equal. eapply IH, E. }
        rewrite Hl, E2. reflexivity.
      + cbn [app] in E. injection E as <- ->. destruct (IH _ _ _ E2 a b eq_refl) as (s3 & E3 & E4).
        exists s3. split; [|exact E4]. cbn [length calls]. rewrite E1, E3. reflexivity. }
  split.
  - intros a o b -> Hend. destruct (Hsplit (a ++ [o]) b) as (s1 & E1 & E2); [rewrite <- app_assoc; reflexivity|].
    assert (Hr1 : Forall returned (a ++ [o])).
    { apply Forall_app in Hr. destruct Hr as [R1 R2]. apply Forall_cons_iff in R2. apply Forall_app. split; [exact R1|]. constructor; [apply R2|constructor]. }
    rewrite calls_session in E1. assert (Hs1 : stream_end_produced s1 = true).
    { eapply (session_end_seen _ Wok_wf _ _ _ _ _ (SInv_start _ dbg e i) E1 Hr1). unfold tokens_of. rewrite flat_map_app, existsb_app. cbn [flat_map].
      rewrite app_nil_r, Hend. apply orb_true_r. }
    pose proof (session_ended_next (length b) s1 Hs1) as Hb. rewrite E2 in Hb. cbn [fst] in Hb. rewrite Hb.
    apply Forall_forall. intros x Hx. apply repeat_spec in Hx. exact Hx.
  - intros a b ->. destruct (Hsplit a (Ok None :: b)) as (s1 & E1 & E2); [reflexivity|].
    apply Forall_app in Hr. destruct Hr as [Hr _].
    destruct (next_inv _ Wok_wf _ _ _ _ _ (SInv_start _ dbg e i) E1 Hr) as [I _]. cbn [app] in I.
    cbn [length calls] in E2. pose proof (scanner_next_f _ _ s1 Wok_wf I) as F. unfold FW, wp in F.
    destruct (scanner_next s1) as [r s2]. destruct (calls scanner_next (length b) s2) as [l s3]. injection E2 as -> _ _.
    destruct F as [F _]. rewrite (si_ended _ _ _ I) in F. exact F.
Qed.
(** After STREAM-END, however it was obtained, both methods keep saying so and touch nothing. *)
Theorem C05_scan_after_end : forall dbg e i cs os s,
  session cs (scanner_start dbg e i) = (os, s) -> Forall returned os ->
  existsb is_stream_end_token (tokens_of os) = true ->
  scan s = (Ok (Mk_token TStreamEnd mark0 mark0), s) /\ scanner_next s = (Ok None, s).
Proof.
  intros dbg e i cs os s H Hr He. pose proof (session_end_seen _ Wok_wf _ _ _ _ _ (SInv_start _ dbg e i) H Hr He) as Es.
  unfold scan, scanner_next, bind, get. rewrite Es. auto.
Qed.
Print Assumptions C05_first_token.
Print Assumptions C05_after_stream_end.
Print Assumptions C05_scan_after_end.

(** ** C06: the marks of the tokens are in order. *)
Theorem C06_marks_in_order : forall dbg e i n os s,
  calls scanner_next n (scanner_start dbg e i) = (os, s) -> Forall returned os ->
  (forall t, In t (tokens_of os) -> before (t_start t) (t_end t)) /\
  (forall a t b u c, tokens_of os = a ++ t :: b ++ u :: c -> before (t_end t) (t_start u)).
Proof.
  intros dbg e i n os s H Hr. destruct (next_inv _ Wok_wf _ _ _ _ _ (SInv_start _ dbg e i) H Hr) as [I _]. cbn [app] in I.
  pose proof (si_ord _ _ _ I) as Ho. unfold all in Ho. split.
  - intros t Ht. apply (ordered_in _ _ _ t Ho). apply in_or_app. left. exact Ht.
  - intros a t b u c E. rewrite E in Ho. rewrite <- app_assoc in Ho. cbn [app] in Ho. rewrite <- app_assoc in Ho. cbn [app] in Ho.
    eapply ordered_pair, Ho.
Qed.
Print Assumptions C06_marks_in_order.

(** ** C07: block structure tokens are balanced. *)
Theorem C07_block_tokens_balanced : forall dbg e i n os s,
  calls scanner_next n (scanner_start dbg e i) = (os, s) -> Forall returned os ->
  (forall a b, tokens_of os = a ++ b -> (count is_block_end_token a <= count is_block_start_token a)%nat) /\
  (existsb is_stream_end_token (tokens_of os) = true -> flow_depth 0 (tokens_of os) = 0 ->
     count is_block_end_token (tokens_of os) = count is_block_start_token (tokens_of os)).
Proof.
  intros dbg e i n os s H Hr. destruct (next_inv _ Wok_wf _ _ _ _ _ (SInv_start _ dbg e i) H Hr) as [I G]. cbn [app] in I, G.
  specialize (G (GD_start dbg e i)). pose proof (si_bal _ _ _ I) as Hb. unfold all in Hb. split.
  - intros a b E. rewrite E, <- app_assoc, depth_app in Hb. destruct (depth 0 a) as [k|] eqn:Ek; [|discriminate].
    apply depth_count in Ek. lia.
  - intros He Hf. apply existsb_exists in He. destruct He as (t & Hin & Ht). apply in_split in Hin. destruct Hin as (a & b & E).
    destruct (si_end _ _ _ I a t (b ++ tokens s)) as (E1 & _ & E2).
    { unfold all. rewrite E, <- app_assoc. reflexivity. } { exact Ht. }
    apply app_eq_nil in E1. destruct E1 as [-> E1]. unfold GD in G. rewrite E1, app_nil_r in G, Hb. rewrite Hf in G. symmetry in G.
    rewrite (E2 G) in Hb. apply depth_count in Hb. cbn [length] in Hb. lia.
Qed.
Print Assumptions C07_block_tokens_balanced.

(** ** C08: the payloads of the tokens. *)
Theorem C08_tokens_well_formed : forall dbg e i n os s,
  calls scanner_next n (scanner_start dbg e i) = (os, s) -> Forall returned os ->
  Forall (fun t => token_wf (t_data t)) (tokens_of os).
Proof.
  intros dbg e i n os s H Hr. destruct (next_inv _ Wok_wf _ _ _ _ _ (SInv_start _ dbg e i) H Hr) as [I _]. cbn [app] in I.
  pose proof (si_W _ _ _ I) as HW. unfold all in HW. apply Forall_app in HW. apply HW.
Qed.
Print Assumptions C08_tokens_well_formed.

(** ** C39 (scanner): errors point to positions the scanner has reached. *)
(** After any history: the marks of an error are not after the current position, which never goes
    back; and the scanner returns no other errors than scanner, reader and I/O errors. *)
Theorem C39_error_marks : forall dbg e i cs os s c er s',
  session cs (scanner_start dbg e i) = (os, s) -> Forall returned os ->
  invoke c s = (Err er, s') ->
  before (pos s) (pos s') /\ Forall (fun m => before m (pos s')) (error_marks er) /\
  match er with EScanner _ _ _ _ | EReader _ _ _ | EIo _ => True | _ => False end.
Proof.
  intros dbg e i cs os s c er s' H Hr Hc. destruct (session_inv _ Wok_wf _ _ _ _ _ (SInv_start _ dbg e i) H Hr) as (d & I & D & _).
  destruct (stream_end_produced s) eqn:Es; [rewrite invoke_ended in Hc by exact Es; discriminate|].
  rewrite invoke_next in Hc by exact Es. pose proof (scanner_next_f _ _ s Wok_wf I) as F. unfold FW, wp in F. rewrite Hc in F.
  destruct F. split; [exact fe_pos|]. unfold err_in in fe_in. destruct er; try contradiction; (split; [|exact Logic.I]); cbn [error_marks].
  - apply Forall_nil.
  - repeat apply Forall_cons; try apply fe_in. apply Forall_nil.
  - apply Forall_nil.
Qed.
(** In UTF-8 input, up to and including the first error, indices of errors and tokens are at most the
    number of bytes of the input. *)
Theorem C39_positions_inside_input : forall dbg e i n os s r s',
  calls scanner_next n (scanner_start dbg e i) = (os, s) -> Forall succeeded os -> scanner_next s = (r, s') -> returned r ->
  enc s' <> Utf16Le -> enc s' <> Utf16Be ->
  (forall er m, r = Err er -> In m (error_marks er) -> m_index m <= N.of_nat (length (all_bytes i))) /\
  (forall t, In t (tokens_of os ++ token_of r) -> m_index (t_end t) <= N.of_nat (length (all_bytes i))).
Proof.
  intros dbg e i n os s r s' H Hr Hc Hret He1 He2.
  assert (Hr' : Forall returned os) by (eapply Forall_impl; [|exact Hr]; intros [] Ha; exact Ha || contradiction).
  destruct (next_inv _ Wok_wf _ _ _ _ _ (SInv_start _ dbg e i) H Hr') as [I _]. cbn [app] in I.
  pose proof H as H'. rewrite calls_session in H'. pose proof (session_prog _ Wok_wf _ _ _ _ _ (SInv_start _ dbg e i) H' Hr) as P.
  assert (Hu : utf16 (enc s') = false) by (destruct (enc s'); try reflexivity; congruence).
  assert (H0 : m_index (pos (scanner_start dbg e i)) + blen (scanner_start dbg e i) = N.of_nat (length (all_bytes i))).
  { rewrite all_bytes_len. unfold blen, sbytes, scanner_start, scanner_on, scanner_new. fld. cbn. reflexivity. }
  pose proof (scanner_next_f _ _ s Wok_wf I) as F. unfold FW, wp in F. rewrite Hc in F.
  assert (Hend : forall W del s1, SInv W del s1 -> m_index (pos s1) <= N.of_nat (length (all_bytes i)) ->
            forall t, In t del -> m_index (t_end t) <= N.of_nat (length (all_bytes i))).
  { intros W del s1 I1 Hp t Ht. pose proof (si_ord _ _ _ I1) as Ho. unfold all in Ho.
    destruct (ordered_in _ _ _ t Ho) as [_ [Hle _]]; [apply in_or_app; auto|]. lia. }
  destruct r as [[t|]|er|p|]; try contradiction.
  - destruct F as (_ & I1 & P1). split; [discriminate|]. cbn [token_of]. apply (Hend _ _ _ I1).
    pose proof (pg_idx _ _ _ P1 Hu). pose proof (pg_idx _ _ _ P (utf16_mono _ _ (pg_enc _ _ _ P1) Hu)). lia.
  - destruct F as (_ & ->). split; [discriminate|]. cbn [token_of]. rewrite app_nil_r. apply (Hend _ _ _ I).
    pose proof (pg_idx _ _ _ P Hu). lia.
  - destruct F. pose proof (fe_idx Hu) as Hi. pose proof (pg_idx _ _ _ P (utf16_mono _ _ fe_enc Hu)) as Hp. split.
    + intros er' m [= <-] Hm. unfold err_in in fe_in. destruct er; cbn [error_marks] in Hm; try contradiction.
      destruct Hm as [<-|[<-|[]]]; destruct fe_in as [[F1 _] [F2 _]]; lia.
    + cbn [token_of]. rewrite app_nil_r. apply (Hend _ _ _ fe_inv). lia.
Qed.
Print Assumptions C39_error_marks.
Print Assumptions C39_positions_inside_input.

(** ** The hypotheses are met by non-trivial sessions. *)
Definition nlb : list byte := [10].
(** A stream with directives, anchors, tags, nested block and flow collections, in three chunks
    with an interruption: 35 tokens, no errors. *)
Definition demo_bytes : list byte :=
  lit "%YAML 1.1" ++ nlb ++ lit "%TAG !e! tag:e.org,2000:" ++ nlb ++ lit "--- !e!map &a" ++ nlb ++
  lit "k: [x, {y: 'z'}, *a]" ++ nlb ++ lit "l:" ++ nlb ++ lit "- p" ++ nlb ++ lit "- ? q" ++ nlb ++ lit "..." ++ nlb.
Definition demo_source : source :=
  Mk_source (firstn 7 demo_bytes) [SData (firstn 30 (skipn 7 demo_bytes)); SIntr; SData (skipn 37 demo_bytes)].
Example scanner_demo :
  let '(os, s) := calls scanner_next 45 (scanner_start true EncAny demo_source) in
  Forall succeeded os /\ length (tokens_of os) = 35%nat /\
  existsb is_stream_end_token (tokens_of os) = true /\ flow_depth 0 (tokens_of os) = 0 /\
  count is_block_start_token (tokens_of os) = 2%nat /\ m_line (pos s) = 8.
Proof. vm_compute. split; [repeat constructor|]. repeat split; reflexivity. Qed.
(** A history with an I/O error in the middle, after which the caller goes on. *)
Example scanner_demo_errors :
  let '(os, s) := session [CallNext; CallNext; CallScan; CallNext; CallNext; CallScan; CallNext; CallScan; CallNext]
                    (scanner_start false Utf8 (Mk_source (lit "a: [b, ") [SFail 5; SData (lit "c]")])) in
  Forall returned os /\ In (Err (EIo (OtherIo 5))) os /\ length (tokens_of os) = 8%nat /\ buffer s <> [].
Proof. vm_compute. split; [repeat constructor|]. split; [tauto|]. split; [reflexivity|discriminate]. Qed.
