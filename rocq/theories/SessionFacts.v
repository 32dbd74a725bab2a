(** SessionFacts.v -- the scanner invariant along sessions. *)
From Coq Require Import ZifyBool ZifyNat ZifyN.
From Verif Require Import Base Utf Chars State Reader Scanner Api Wp ReaderFacts Spec_Tokens ScanFacts TokFacts FetchFacts FetchWp FetchLoop FlowFacts Spec_Scanner.

Lemma all_bytes_len i : length (all_bytes i) = src_bytes i.
Proof.
  unfold all_bytes, src_bytes. rewrite app_length. f_equal. induction (s_evs i) as [|[l| |k] r IH]; cbn; auto.
  rewrite app_length, IH. reflexivity.
Qed.

Lemma SInv_start W dbg e i : SInv W [] (scanner_start dbg e i).
Proof.
  unfold scanner_start, scanner_on, scanner_new. constructor; unfold all; fld; cbn; try discriminate; auto; try (constructor; fail).
  - intros H. exfalso. apply H. reflexivity.
  - apply mark_le_refl.
  - intros a t b H. destruct a; discriminate.
Qed.
Lemma GD_start dbg e i : GD [] (scanner_start dbg e i).
Proof. reflexivity. Qed.
Lemma bnd_start dbg e i K : N.of_nat (length (all_bytes i)) <= K -> bnd K (scanner_start dbg e i).
Proof.
  intros H. rewrite all_bytes_len in H. unfold bnd, vol, sbytes, scanner_start, scanner_on, scanner_new. fld. cbn [m_col mark0 length simple_keys].
  split; [lia|]. split; [lia|]. constructor.
Qed.

(** One call. *)
Lemma invoke_next c s : stream_end_produced s = false -> invoke c s = scanner_next s.
Proof. intros H. destruct c; [|reflexivity]. unfold invoke, scanner_next, bind, get. rewrite H. reflexivity. Qed.
Lemma invoke_ended c s : stream_end_produced s = true ->
  invoke c s = (Ok (match c with CallScan => Some (Mk_token TStreamEnd mark0 mark0) | CallNext => None end), s).
Proof. intros H. destruct c; unfold invoke, scan, scanner_next, bind, get, ret; rewrite H; reflexivity. Qed.

Lemma calls_session n : forall s, calls scanner_next n s = session (repeat CallNext n) s.
Proof. induction n as [|n IH]; intros s; cbn [calls session repeat invoke]; [reflexivity|]. destruct (scanner_next s) as [r s1]. rewrite IH. reflexivity. Qed.

(** Any history without panics. *)
Lemma session_inv W : Wok W -> forall cs del s os s', SInv W del s -> session cs s = (os, s') -> Forall returned os ->
  exists del', SInv W (del ++ del') s' /\ debug_build s' = debug_build s /\ mark_le (pos s) (pos s').
Proof.
  intros HW. induction cs as [|c cs IH]; intros del s os s' I; cbn [session].
  - intros [= <- <-] _. exists []. rewrite app_nil_r. split; [exact I|]. split; [reflexivity|apply mark_le_refl].
  - destruct (invoke c s) as [r s1] eqn:E. destruct (session cs s1) as [l s2] eqn:E2. intros [= <- <-] HF.
    apply Forall_cons_iff in HF. destruct HF as [H1 H2].
    assert (exists d, SInv W (del ++ d) s1 /\ debug_build s1 = debug_build s /\ mark_le (pos s) (pos s1)) as (d & I1 & D1 & M1).
    { destruct (stream_end_produced s) eqn:Es.
      - rewrite (invoke_ended c s Es) in E. injection E as <- <-. exists []. rewrite app_nil_r.
        split; [exact I|]. split; [reflexivity|apply mark_le_refl].
      - rewrite (invoke_next c s Es) in E. pose proof (scanner_next_f W del s HW I) as H. unfold FW, wp in H. rewrite E in H.
        destruct r as [[t|]|e|p|]; try contradiction.
        + destruct H as (_ & H & P). exists [t]. split; [exact H|]. split; [apply P|apply P].
        + destruct H as (_ & ->). exists []. rewrite app_nil_r. split; [exact I|]. split; [reflexivity|apply mark_le_refl].
        + exists []. rewrite app_nil_r. destruct H. auto. }
    destruct (IH (del ++ d) s1 l s2 I1 E2 H2) as (d2 & I2 & D2 & M2). exists (d ++ d2).
    rewrite app_assoc. split; [exact I2|]. split; [congruence|eapply mark_le_trans; eassumption].
Qed.

(** Sessions of the iterator: the tokens delivered are those of the invariant. *)
Lemma next_inv W : Wok W -> forall n del s os s', SInv W del s -> calls scanner_next n s = (os, s') -> Forall returned os ->
  SInv W (del ++ tokens_of os) s' /\ (GD del s -> GD (del ++ tokens_of os) s').
Proof.
  intros HW. induction n as [|n IH]; intros del s os s' I; cbn [calls].
  - intros [= <- <-] _. cbn. rewrite app_nil_r. auto.
  - destruct (scanner_next s) as [r s1] eqn:E. destruct (calls scanner_next n s1) as [l s2] eqn:E2. intros [= <- <-] HF.
    apply Forall_cons_iff in HF. destruct HF as [H1 H2].
    pose proof (scanner_next_f W del s HW I) as H. unfold FW, wp in H. pose proof (scanner_next_G del s) as HG. rewrite E in H, HG.
    destruct r as [[t|]|e|p|]; try contradiction.
    + destruct H as (_ & H & _). destruct (IH _ _ _ _ H E2 H2) as [J1 J2]. rewrite <- app_assoc in J1, J2. auto.
    + destruct H as (_ & ->). destruct (IH _ _ _ _ I E2 H2) as [J1 J2]. cbn [tokens_of flat_map token_of app]. auto.
    + destruct H. destruct (IH _ _ _ _ fe_inv E2 H2) as [J1 J2]. cbn [tokens_of flat_map token_of app]. auto.
Qed.

(** Before the first error. *)
Lemma session_prog W : Wok W -> forall cs del s os s', SInv W del s -> session cs s = (os, s') -> Forall succeeded os ->
  prog 0 s s'.
Proof.
  intros HW. induction cs as [|c cs IH]; intros del s os s' I; cbn [session].
  - intros [= <- <-] _. apply prog_refl.
  - destruct (invoke c s) as [r s1] eqn:E. destruct (session cs s1) as [l s2] eqn:E2. intros [= <- <-] HF.
    apply Forall_cons_iff in HF. destruct HF as [H1 H2].
    assert (exists d, SInv W (del ++ d) s1 /\ prog 0 s s1) as (d & I1 & P1).
    { destruct (stream_end_produced s) eqn:Es.
      - rewrite (invoke_ended c s Es) in E. injection E as <- <-. exists []. rewrite app_nil_r. split; [exact I|apply prog_refl].
      - rewrite (invoke_next c s Es) in E. pose proof (scanner_next_f W del s HW I) as H. unfold FW, wp in H. rewrite E in H.
        destruct r as [[t|]|e|p|]; try contradiction.
        + destruct H as (_ & H & P). exists [t]. split; [exact H|]. eapply prog_weaken; [exact P|lia].
        + destruct H as (_ & ->). exists []. rewrite app_nil_r. split; [exact I|apply prog_refl]. }
    change 0%Z with (0 + 0)%Z. eapply prog_trans; [exact P1|]. eapply IH; eassumption.
Qed.
Lemma next_phi W : Wok W -> forall n del s os s', SInv W del s -> calls scanner_next n s = (os, s') -> Forall succeeded os ->
  (phi s' + Z.of_nat (length (tokens_of os)) <= phi s)%Z /\ (length (tokens_of os) < n -> stream_end_produced s' = true)%nat.
Proof.
  intros HW. induction n as [|n IH]; intros del s os s' I; cbn [calls].
  - intros [= <- <-] _. cbn. split; [lia|lia].
  - destruct (scanner_next s) as [r s1] eqn:E. destruct (calls scanner_next n s1) as [l s2] eqn:E2. intros [= <- <-] HF.
    apply Forall_cons_iff in HF. destruct HF as [H1 H2].
    pose proof (scanner_next_f W del s HW I) as H. unfold FW, wp in H. rewrite E in H.
    destruct r as [[t|]|e|p|]; try contradiction.
    + destruct H as (_ & H & P). destruct (IH _ _ _ _ H E2 H2) as [J1 J2]. destruct P.
      cbn [tokens_of flat_map token_of app length] in *. fold (tokens_of l) in *. split; [lia|]. intros. apply J2. lia.
    + destruct H as (Hs & ->). destruct (IH _ _ _ _ I E2 H2) as [J1 J2]. cbn [tokens_of flat_map token_of app].
      split; [exact J1|]. intros _.
      assert (Hk : forall k s, stream_end_produced s = true -> snd (calls scanner_next k s) = s).
      { induction k as [|k IHk]; intros s0 H0; [reflexivity|]. cbn [calls].
        pose proof (invoke_ended CallNext s0 H0) as Hi. cbn [invoke] in Hi. rewrite Hi.
        specialize (IHk s0 H0). destruct (calls scanner_next k s0). exact IHk. }
      specialize (Hk n s Hs). rewrite E2 in Hk. cbn in Hk. subst s2. exact Hs.
Qed.

(** The end of the stream. *)
Lemma session_ended cs : forall s, stream_end_produced s = true -> snd (session cs s) = s.
Proof.
  induction cs as [|c cs IH]; intros s H; [reflexivity|]. cbn [session]. rewrite (invoke_ended c s H).
  specialize (IH s H). destruct (session cs s). exact IH.
Qed.
Lemma session_ended_next n : forall s, stream_end_produced s = true -> fst (calls scanner_next n s) = repeat (Ok None) n.
Proof.
  induction n as [|n IH]; intros s H; [reflexivity|]. cbn [calls repeat].
  pose proof (invoke_ended CallNext s H) as Hi. cbn [invoke] in Hi. rewrite Hi. specialize (IH s H).
  destruct (calls scanner_next n s). cbn [fst] in *. rewrite IH. reflexivity.
Qed.
Lemma session_end_seen W : Wok W -> forall cs del s os s', SInv W del s -> session cs s = (os, s') -> Forall returned os ->
  existsb is_stream_end_token (tokens_of os) = true -> stream_end_produced s' = true.
Proof.
  intros HW. induction cs as [|c cs IH]; intros del s os s' I; cbn [session].
  - intros [= <- <-] _ H. discriminate.
  - destruct (invoke c s) as [r s1] eqn:E. destruct (session cs s1) as [l s2] eqn:E2. intros [= <- <-] HF Hend.
    apply Forall_cons_iff in HF. destruct HF as [H1 H2].
    pose proof (session_ended cs) as Hk.
    destruct (stream_end_produced s) eqn:Es.
    { rewrite (invoke_ended c s Es) in E. injection E as <- <-. specialize (Hk s Es). rewrite E2 in Hk. cbn in Hk. subst s2. exact Es. }
    rewrite (invoke_next c s Es) in E. pose proof (scanner_next_f W del s HW I) as H. unfold FW, wp in H. rewrite E in H.
    cbn [tokens_of flat_map] in Hend. rewrite existsb_app in Hend.
    destruct r as [[t|]|e|p|]; try contradiction; cbn [token_of existsb orb] in Hend.
    + destruct H as (_ & H & _). rewrite orb_false_r in Hend. destruct (is_stream_end_token t) eqn:Et.
      * assert (stream_end_produced s1 = true) as Hs1.
        { rewrite (si_ended _ _ _ H), existsb_app. change (is_stream_end_token t) with (is_stream_end t) in Et. cbn. rewrite Et. apply orb_true_r. }
        specialize (Hk s1 Hs1). rewrite E2 in Hk. cbn in Hk. subst s2. exact Hs1.
      * eapply IH; eassumption.
    + destruct H as (Hx & _). congruence.
    + destruct H. eapply IH; eassumption.
Qed.

(** Consequences of the invariants on lists of tokens. *)
Lemma ordered_in lo l hi t : ordered lo l hi -> In t l -> mark_le (t_start t) (t_end t) /\ mark_le (t_end t) hi.
Proof.
  revert lo. induction l as [|u r IH]; intros lo H Hin; [contradiction|]. destruct H as (H1 & H2 & H3).
  destruct Hin as [->|Hin]; [|eapply IH; eassumption]. split; [exact H2|eapply ordered_le, H3].
Qed.
Lemma ordered_pair lo a t b u c hi : ordered lo (a ++ t :: b ++ u :: c) hi -> mark_le (t_end t) (t_start u).
Proof.
  revert lo. induction a as [|x a IH]; intros lo H; cbn [app] in H; destruct H as (H1 & H2 & H3); [|eapply IH, H3].
  clear - H3. revert H3. generalize (t_end t). induction b as [|y b IH]; intros m H; cbn [app] in H; destruct H as (H1 & H2 & H3); [exact H1|].
  eapply mark_le_trans; [exact H1|]. eapply mark_le_trans; [exact H2|]. apply IH, H3.
Qed.
Lemma depth_count l : forall d n, depth d l = Some n ->
  (count is_block_end_token l + n = count is_block_start_token l + d)%nat.
Proof.
  unfold count. induction l as [|t r IH]; intros d n; cbn [depth filter length]; [intros [= ->]; lia|].
  change (is_block_start_token t) with (opens (t_data t)). change (is_block_end_token t) with (closes (t_data t)).
  destruct (opens (t_data t)) eqn:E1.
  - intros H. apply IH in H. destruct (closes (t_data t)) eqn:E2; [destruct (t_data t); discriminate|]. cbn [length]. lia.
  - destruct (closes (t_data t)); [|intros H; apply IH in H; lia]. destruct d; [discriminate|]. intros H. apply IH in H. cbn [length]. lia.
Qed.
