(** FetchWp.v -- the fetch_ functions, scan, peek and skip_token preserve the scanner invariant. *)
From Coq Require Import ZifyBool ZifyNat ZifyN.
From Verif Require Import Base Utf Chars State Reader Scanner Wp ReaderFacts Spec_Tokens ScanFacts TokFacts FetchFacts.

(** Bound on the sizes: no counter of the scanner can exceed [K]. *)
Definition bnd (K : N) (s : sst) : Prop :=
  flow_level s + N.of_nat (vol s) <= K /\ m_col (pos s) + N.of_nat (vol s) <= K /\
  Forall (on (fun k => m_col (sk_mark k) <= K)) (simple_keys s).
Definition ovf (p : panic) : Prop := p = PFlowLevelOverflow \/ p = PIndentOverflow.
(** The panics a fetch can run into. *)
Definition fpanic (s : sst) (p : panic) : Prop :=
  spanic (debug_build s) p \/ ovf p /\ forall K, K <= 2147483647 -> ~ bnd K s.
(** After an error. *)
Record ferr (W : token_data -> Prop) (del : list token) (s : sst) (e : error) (s' : sst) : Prop := {
  fe_inv : SInv W del s';
  fe_in : err_in e s';
  fe_idx : utf16 (enc s') = false -> m_index (pos s') <= m_index (pos s) + blen s;
  fe_enc : enc s <> EncAny -> enc s' = enc s;
  fe_pos : mark_le (pos s) (pos s');
  fe_dbg : debug_build s' = debug_build s }.

Lemma bnd_step K a b c s s' : step a b c s s' -> (b <= 0)%Z -> bnd K s -> bnd K s'.
Proof.
  intros S Hb (H1 & H2 & H3). destruct S. split; [lia|]. split; [lia|].
  rewrite Forall_forall in *. intros k Hk Hp. destruct (st_keys k Hk Hp) as [H|H]; [apply H3; auto|lia].
Qed.
Lemma fpanic_step a b c s s' p : step a b c s s' -> (b <= 0)%Z -> fpanic s' p -> fpanic s p.
Proof.
  intros S Hb [H|[H1 H2]]; [left; rewrite <- (st_dbg _ _ _ _ _ S); exact H|right]. split; [exact H1|].
  intros K HK HB. apply (H2 K HK). eapply bnd_step; eassumption.
Qed.
Lemma ferr_step W del a b c s s' e s2 : step a b c s s' -> ferr W del s' e s2 -> ferr W del s e s2.
Proof.
  intros S []. constructor; auto.
  - intros H. specialize (fe_idx0 H). pose proof (st_idx _ _ _ _ _ S (utf16_mono _ _ fe_enc0 H)). lia.
  - intros H. rewrite fe_enc0; [apply S, H|]. rewrite (st_enc _ _ _ _ _ S H). exact H.
  - eapply mark_le_trans; [apply S|exact fe_pos0].
  - rewrite fe_dbg0. apply S.
Qed.

(** [FW W del s0 m Q s]: [m] is run at [s], inside a fetch that started at [s0]. *)
Definition FW W del (s0 : sst) {A} (m : M sst A) (Q : A -> sst -> Prop) (s : sst) : Prop :=
  wp m Q (ferr W del s0) (fpanic s0) s.
Lemma fseq W del s0 s {A B} (m : M sst A) (k : A -> M sst B) Q1 Q a b c :
  step a b c s0 s -> (b <= 0)%Z -> FW W del s m Q1 s ->
  (forall x s', Q1 x s' -> FW W del s0 (k x) Q s') -> FW W del s0 (bind m k) Q s.
Proof.
  intros S Hb H1 H2. eapply wp_seq; [exact H1|exact H2| |].
  - intros e s' He. eapply ferr_step; eassumption.
  - intros p Hp. eapply fpanic_step; eassumption.
Qed.
Lemma flast W del s0 s {A} (m : M sst A) Q1 (Q : A -> sst -> Prop) a b c :
  step a b c s0 s -> (b <= 0)%Z -> FW W del s m Q1 s ->
  (forall x s', Q1 x s' -> Q x s') -> FW W del s0 m Q s.
Proof.
  intros S Hb H1 H2. eapply wp_conseq; [exact H1|exact H2| |].
  - intros e s' He. eapply ferr_step; eassumption.
  - intros p Hp. eapply fpanic_step; eassumption.
Qed.
Lemma step_refl s : step 0 0 0 s s.
Proof. apply step_adv, adv_refl. Qed.

(** Functions that only touch the input. *)
Lemma f_io W del {A} (m : M sst A) s Q : SInv W del s -> spec m s Q ->
  FW W del s m (fun x s' => adv s s' /\ Q x s') s.
Proof.
  intros I H. eapply wp_conseq; [exact H|auto| |].
  - intros e s' [A1 A2]. constructor; try apply A1.
    + eapply SInv_io; eassumption.
    + exact A2.
    + apply advE_mark_le, A1.
    + apply frame_dbg, A1.
  - intros p Hp. left. exact Hp.
Qed.

Lemma key_le W del s k : SInv W del s -> In k (simple_keys s) -> sk_possible k = true -> mark_le (sk_mark k) (pos s).
Proof.
  intros I Hk Hp. pose proof (si_keys _ _ _ I) as H. rewrite Forall_forall in H.
  destruct (H k Hk Hp) as (_ & _ & _ & _ & H5 & _). eapply ordered_le, H5.
Qed.
Lemma err_keep W del s e s' : SInv W del s' -> same_io s s' ->
  match e with EScanner _ cm _ pm => mark_le cm (pos s) /\ mark_le pm (pos s) | _ => False end -> ferr W del s e s'.
Proof.
  intros I (I1 & I2 & I3 & I4 & I5 & I6 & I7 & I8) He. constructor; auto.
  - destruct e; try contradiction. cbn. rewrite I4. exact He.
  - rewrite I4. intros _. unfold blen. lia.
  - rewrite I4. apply mark_le_refl.
Qed.
Lemma same_io_keys s ks : same_io s (set_simple_keys ks s).
Proof. unfold same_io. auto 10. Qed.

Lemma stale_f W del s : SInv W del s ->
  FW W del s stale_simple_keys (fun _ s' => (exists ks, s' = set_simple_keys ks s /\ Forall2 koff (simple_keys s) ks
                        /\ Forall (fun k => sk_stale (pos s) k = false) ks)) s.
Proof.
  intros I. unfold FW, wp, stale_simple_keys.
  pose proof (stale_keys_koff (pos s) (simple_keys s)) as H1.
  pose proof (stale_keys_none (pos s) (simple_keys s)) as H2.
  pose proof (stale_keys_some (pos s) (simple_keys s)) as H3.
  destruct (stale_keys (pos s) (simple_keys s)) as [ks [m|]]; cbn [fst snd] in *.
  - apply err_keep; [apply SInv_koff; assumption|apply same_io_keys|].
    destruct (H3 m eq_refl) as (k & Hk & Hp & ->). split; [eapply key_le; eassumption|apply mark_le_refl].
  - exists ks. auto.
Qed.

Lemma remove_f W del s : IN W del s ->
  FW W del s remove_simple_key (fun _ s' => IN W del s' /\ step 0 0 0 s s' /\
     exists k r, simple_keys s = k :: r /\ s' = set_simple_keys (sk_off k :: r) s) s.
Proof.
  intros (I & I1 & I2 & I3). unfold FW, wp, remove_simple_key. destruct (simple_keys s) as [|k r] eqn:E.
  - exfalso. pose proof (si_lvl _ _ _ I I1) as H. rewrite E in H. discriminate.
  - destruct (sk_possible k && sk_required k) eqn:Ek.
    + apply err_keep; [exact I|unfold same_io; auto 10|]. split; [|apply mark_le_refl].
      eapply key_le; [exact I|rewrite E; left; reflexivity|lia].
    + assert (Hk : Forall2 koff (simple_keys s) (sk_off k :: r)).
      { rewrite E. constructor; [right; reflexivity|apply koff_refl]. }
      split; [apply IN_koff; [repeat (split; [assumption|]); assumption|exact Hk]|]. split; [apply step_koff, Hk|].
      exists k, r. auto.
Qed.

Lemma FOP_cons_off k r : ForallOrdPairs kle (k :: r) -> ForallOrdPairs kle (sk_off k :: r).
Proof. intros H. eapply koff_pairs; [|exact H]. constructor; [right; reflexivity|apply koff_refl]. Qed.

Lemma save_f W del s : IN W del s -> bget 0 s <> None ->
  FW W del s save_simple_key (fun _ s' => IN W del s' /\ step 0 0 0 s s' /\ same_io s s' /\ flow_level s' = flow_level s) s.
Proof.
  intros I Hb. unfold save_simple_key. unfold FW. apply wp_bind, wp_get. destruct (simple_key_allowed s).
  2:{ apply wp_ret. split; [exact I|]. split; [apply step_refl|]. unfold same_io. auto 10. }
  eapply fseq; [apply step_refl|lia|apply remove_f, I|]. cbn beta.
  intros _ s1 (I' & S' & k & r & E & ->). unfold FW, wp. fld. set (k' := Mk_sk true _ _ _).
  assert (HI : SInv W del s) by apply I. assert (Hst : stream_start_produced s = true) by apply I.
  pose proof (si_lvl _ _ _ HI Hst) as Hl. pose proof (si_pairs _ _ _ HI) as Hp. pose proof (si_keys _ _ _ HI) as Hk.
  rewrite E in *. inversion Hp as [|? ? Hp1 Hp2]; subst. inversion Hk as [|? ? Hk1 Hk2]; subst.
  assert (Hnum : tokens_parsed s + N.of_nat (length (tokens s)) = N.of_nat (length (all del s))).
  { rewrite (si_num _ _ _ HI). unfold all. rewrite app_length. lia. }
  assert (Hk' : key_ok del s k').
  { unfold key_ok, k'. cbn [sk_token sk_mark]. rewrite Hnum, Nat2N.id, firstn_all, skipn_all.
    destruct (si_head _ _ _ HI Hst) as (t0 & r0 & Ea & _). 
    split; [rewrite Ea; cbn [length]; lia|]. split; [lia|]. split; [lia|]. split; [apply (si_ord _ _ _ HI)|].
    split; [apply mark_le_refl|]. right. unfold bget in Hb. destruct (buffer s); [contradiction|discriminate]. }
  assert (Hpairs : ForallOrdPairs kle (k' :: r)).
  { constructor; [|exact Hp2]. rewrite Forall_forall in *. intros q Hq _ Hqp. specialize (Hk2 q Hq Hqp).
    destruct Hk2 as (_ & _ & K3 & _ & K5 & _). cbn [sk_token sk_mark k']. split; [lia|eapply ordered_le, K5]. }
  assert (HF : Forall (on (key_ok del s)) (k' :: r)) by (constructor; [intros _; exact Hk'|exact Hk2]).
  pose proof (IN_keys W del s (flow_level s) (k' :: r) I Hl HF Hpairs) as I2. rewrite set_fl_id in I2.
  split; [exact I2|].
  split; [|split; [unfold same_io; auto 10|reflexivity]].
  apply step_same; fld; auto; try lia.
  - unfold same_io; auto 10.
  - unfold ti. fld. lia.
  - intros q [<-|Hq] Hqp; [right; unfold k'; cbn [sk_mark]; lia|left; rewrite E; right; exact Hq].
Qed.

(** A token made of the next [n] characters. *)
Lemma skips_io n s : (0 < n)%nat -> (n <= length (buffer s))%nat ->
  spec (skip_chars n) s (fun _ s' => strict s s').
Proof. intros H1 H2. eapply spec_weaken; [apply skip_chars_spec, H2|]. cbn beta. intros _ s' _ [H _]. apply H, H1. Qed.

Definition plain_tok (d : token_data) : Prop :=
  opens d = false /\ closes d = false /\ (forall a b, no_start (Mk_token d a b)) /\ (forall a b, no_end (Mk_token d a b)).

Lemma indicator_f W del s n d : IN W del s -> (0 < n)%nat -> (n <= length (buffer s))%nat -> W d -> plain_tok d ->
  FW W del s (fetch_indicator n d) (fun _ s' => IN W del s' /\ step 1 (-1) (-1) s s') s.
Proof.
  intros I Hn1 Hn2 HW (D1 & D2 & D3 & D4). unfold fetch_indicator, FW. apply wp_bind, wp_gets.
  eapply fseq; [apply step_refl|lia|apply f_io; [apply I|apply skips_io; eassumption]|]. cbn beta.
  intros _ s1 [A1 S1]. unfold FW. apply wp_bind, wp_gets. unfold push_token. apply wp_modify.
  fold (add_tok (Mk_token d (pos s) (pos s1)) s1). split.
  - apply (IN_push0 W del s s1); auto; cbn [t_start t_end t_data]; auto; try apply A1.
    + apply advE_mark_le, A1.
    + apply mark_le_refl.
  - eapply step_weaken; [eapply step_trans; [apply step_adv1; eassumption|apply step_push0]|lia..].
Qed.

(** ** Indentation *)
Lemma roll_push_f W del s0 s d a b c col : step a b c s0 s -> (b <= 0)%Z ->
  (forall K, K <= 2147483647 -> bnd K s0 -> (col <= Z.of_N K)%Z) -> IN W del s -> W d -> opens d = true ->
  (forall a b, no_start (Mk_token d a b)) -> (forall a b, no_end (Mk_token d a b)) ->
  FW W del s0 (roll_indent col None d (pos s)) (fun _ s' => IN W del s' /\ step 2 0 0 s s' /\ same_io s s') s.
Proof.
  intros S Hb HK I HW Ho D1 D2. unfold roll_indent, FW. apply wp_bind, wp_get.
  assert (Hid : IN W del s /\ step 2 0 0 s s /\ same_io s s).
  { split; [exact I|]. split; [eapply step_weaken; [apply step_refl|lia..]|unfold same_io; auto 10]. }
  destruct (negb (flow_level s =? 0)); [apply wp_ret, Hid|].
  destruct (indent s <? col)%Z eqn:Ei; [|apply wp_ret, Hid].
  apply wp_bind, wp_modify. apply wp_bind. destruct (col <=? 2147483647)%Z eqn:Ec.
  2:{ apply wp_panics. right. split; [right; reflexivity|]. intros K H1 H2. specialize (HK K H1 H2). lia. }
  apply wp_ret. apply wp_bind, wp_modify. unfold push_token. apply wp_modify. fld.
  change (IN W del (add_tok (Mk_token d (pos s) (pos s)) (set_ind col (indent s :: indents s) s)) /\
          step 2 0 0 s (add_tok (Mk_token d (pos s) (pos s)) (set_ind col (indent s :: indents s) s)) /\
          same_io s (add_tok (Mk_token d (pos s) (pos s)) (set_ind col (indent s :: indents s) s))).
  split; [|split; [|unfold same_io; auto 10]].
  - apply (IN_push W del s s); cbn [t_start t_end t_data]; auto; try apply mark_le_refl.
    + apply advE_refl.
    + cbn [depth t_data]. rewrite Ho. reflexivity.
    + apply ind_ok_push; [apply I; apply I|lia].
  - eapply step_weaken; [apply step_push|cbn [length]; lia..].
Qed.

Lemma unroll_f (W : token_data -> Prop) del s col : IN W del s -> W TBlockEnd -> (-1 <= col)%Z ->
  FW W del s (unroll_indent col) (fun _ s' => IN W del s' /\ step 0 0 0 s s' /\ same_io s s'
     /\ (flow_level s' = 0 -> (indent s' <= col)%Z) /\ simple_keys s' = simple_keys s /\ flow_level s' = flow_level s) s.
Proof.
  intros I HW Hc. unfold FW, wp, unroll_indent. destruct (negb (flow_level s =? 0)) eqn:Ef.
  - split; [exact I|]. split; [apply step_refl|]. split; [unfold same_io; auto 10|]. split; [lia|auto].
  - pose proof (unroll_IN W del col HW Hc _ s eq_refl I) as H.
    destruct (unroll_go col (indent s) (indents s) (pos s) (tokens s)) as [[[p i] st] toks]. cbn zeta in H.
    destruct H as (-> & H2 & H3 & H4 & H5 & H6). split; [exact H2|]. split; [exact H3|]. split; [unfold same_io; auto 10|].
    split; [intros _; exact H4|auto].
Qed.


Lemma same_io_trans a b c : same_io a b -> same_io b c -> same_io a c.
Proof. unfold same_io. intuition congruence. Qed.
Lemma same_io_bget s s' i : same_io s s' -> bget i s' = bget i s.
Proof. unfold same_io, bget. intros (_ & H & _). rewrite H. reflexivity. Qed.
Lemma same_io_src s s' : same_io s s' -> src s <> None -> src s' <> None.
Proof. unfold same_io. intros (H & _). congruence. Qed.

(** Setting [simple_key_allowed]. *)
Lemma ska_f (W : token_data -> Prop) del s0 s (f : sst -> sst) (Q : unit -> sst -> Prop) :
  (forall s, exists v, f s = set_simple_key_allowed v s) -> IN W del s ->
  (forall s', IN W del s' -> step 0 0 0 s s' -> same_io s s' -> flow_level s' = flow_level s -> Q tt s') ->
  FW W del s0 (modify f) Q s.
Proof.
  intros Hf I H. unfold FW. apply wp_modify. destruct (Hf s) as [v Hv]. apply H; rewrite ?Hv; [|apply step_adv, adv_ska|unfold same_io; auto 10|reflexivity].
  eapply IN_io; [exact I|apply adv_ska].
Qed.

Lemma remove_f' W del s : IN W del s ->
  FW W del s remove_simple_key (fun _ s' => IN W del s' /\ step 0 0 0 s s' /\ same_io s s' /\ flow_level s' = flow_level s) s.
Proof.
  intros I. eapply flast; [apply step_refl|lia|apply remove_f, I|]. cbn beta.
  intros _ s' (I' & S' & k & r & E & ->). split; [exact I'|]. split; [exact S'|]. split; [apply same_io_keys|reflexivity].
Qed.

Definition Wok (W : token_data -> Prop) : Prop := forall d, token_wf d -> W d.
Definition FQ W del s (a : Z) (_ : unit) (s' : sst) : Prop := IN W del s' /\ step a 0 (-1) s s'.

Lemma push_scanned_f (W : token_data -> Prop) del s m : Wok W -> IN W del s -> spec m s (tok_post s) ->
  (forall x s', m s = (Ok x, s') -> plain_tok (t_data x)) ->
  FW W del s (push_scanned m) (FQ W del s 1) s.
Proof.
  intros HW I H Hp. unfold push_scanned.
  assert (H' : spec m s (fun t s' => tok_post s t s' /\ plain_tok (t_data t))).
  { unfold spec, wp in *. destruct (m s) as [[x|e|p|] s'] eqn:E; auto. split; [apply H|]. split; [apply H|eapply Hp, eq_refl]. }
  eapply fseq; [apply step_refl|lia|apply f_io; [apply I|exact H']|]. cbn beta.
  intros t s1 [A1 [(T1 & T2 & T3 & T4 & T5) (P1 & P2 & P3 & P4)]]. unfold FW. apply wp_modify.
  fold (add_tok t s1). split.
  - apply (IN_push0 W del s s1); auto; try apply A1; destruct t; cbn in *; auto.
  - eapply step_weaken; [eapply step_trans; [apply step_adv1; eassumption|apply step_push0]|lia..].
Qed.

Lemma save_ska W del s v (k : M sst unit) a : IN W del s -> bget 0 s <> None ->
  (forall s', IN W del s' -> step 0 0 0 s s' -> same_io s s' -> flow_level s' = flow_level s -> FW W del s' k (FQ W del s' a) s') ->
  FW W del s (save_simple_key ;; modify (set_simple_key_allowed v) ;; k) (FQ W del s a) s.
Proof.
  intros I Hb H. eapply fseq; [apply step_refl|lia|apply save_f; assumption|]. cbn beta.
  intros _ s1 (I1 & S1 & O1 & F1).
  eapply fseq; [exact S1|lia|apply (ska_f W del s1 s1) with (Q := fun _ s' => IN W del s' /\ step 0 0 0 s s' /\ same_io s s' /\ flow_level s' = flow_level s); [eauto|exact I1|]|].
  { intros s2 I2 S2 O2 F2. split; [exact I2|]. split; [|split; [eapply same_io_trans; eassumption|congruence]].
    eapply step_weaken; [eapply step_trans; eassumption|lia..]. }
  cbn beta. intros _ s2 (I2 & S2 & O2 & F2). eapply flast; [exact S2|lia|apply H; assumption|].
  intros ? s3 [I3 S3]. split; [exact I3|]. eapply step_weaken; [eapply step_trans; eassumption|lia..].
Qed.
Lemma remove_ska W del s f (k : M sst unit) a : (forall s, exists v, f s = set_simple_key_allowed v s) -> IN W del s ->
  (forall s', IN W del s' -> step 0 0 0 s s' -> same_io s s' -> flow_level s' = flow_level s -> FW W del s' k (FQ W del s' a) s') ->
  FW W del s (remove_simple_key ;; modify f ;; k) (FQ W del s a) s.
Proof.
  intros Hf I H. eapply fseq; [apply step_refl|lia|apply remove_f'; assumption|]. cbn beta.
  intros _ s1 (I1 & S1 & O1 & F1).
  eapply fseq; [exact S1|lia|apply (ska_f W del s1 s1) with (Q := fun _ s' => IN W del s' /\ step 0 0 0 s s' /\ same_io s s' /\ flow_level s' = flow_level s); [exact Hf|exact I1|]|].
  { intros s2 I2 S2 O2 F2. split; [exact I2|]. split; [|split; [eapply same_io_trans; eassumption|congruence]].
    eapply step_weaken; [eapply step_trans; eassumption|lia..]. }
  cbn beta. intros _ s2 (I2 & S2 & O2 & F2). eapply flast; [exact S2|lia|apply H; assumption|].
  intros ? s3 [I3 S3]. split; [exact I3|]. eapply step_weaken; [eapply step_trans; eassumption|lia..].
Qed.
Lemma indicator_FQ W del s n d : Wok W -> IN W del s -> (0 < n)%nat -> (n <= length (buffer s))%nat -> token_wf d -> plain_tok d ->
  FW W del s (fetch_indicator n d) (FQ W del s 1) s.
Proof.
  intros HW I H1 H2 H3 H4. eapply flast; [apply step_refl|lia|apply indicator_f; auto|].
  cbn beta. intros ? s' [I' S']. split; [exact I'|]. eapply step_weaken; [exact S'|lia..].
Qed.
Lemma FQ_weaken W del s a a' m s1 : (a <= a')%Z -> FW W del s m (FQ W del s a) s1 -> FW W del s m (FQ W del s a') s1.
Proof.
  intros H F. eapply wp_conseq; [exact F| |auto|auto]. intros ? s' [I S]. split; [exact I|]. eapply step_weaken; [exact S|lia..].
Qed.
Ltac ptok := unfold plain_tok; cbn; repeat split; reflexivity.
Lemma bget_len1 s : bget 0 s <> None -> (1 <= length (buffer s))%nat.
Proof. intros H. apply bget_len in H. lia. Qed.
Lemma in_src W del s : IN W del s -> src s <> None.
Proof. intros [I _]. apply I. Qed.

(** ** The simple fetch functions *)
Lemma scan_shape {B} (m : M sst B) (f : B -> token) (P : token -> Prop) s x s' :
  (forall b, P (f b)) -> bind m (fun b => ret (f b)) s = (Ok x, s') -> P x.
Proof. intros H. unfold bind, ret. destruct (m s) as [[b| | |] ?]; try discriminate. intros E. inversion E; subst. apply H. Qed.
Lemma bind_inv {A B} (m : M sst A) (k : A -> M sst B) s y s' : bind m k s = (Ok y, s') ->
  exists x s1, m s = (Ok x, s1) /\ k x s1 = (Ok y, s').
Proof. unfold bind. destruct (m s) as [[x| | |] s1]; try discriminate. eauto. Qed.
Ltac shape := repeat match goal with
  | H : bind _ _ _ = (Ok _, _) |- _ => apply bind_inv in H; destruct H as (? & ? & ? & H)
  | H : ret _ _ = (Ok _, _) |- _ => unfold ret in H; inversion H; clear H; subst
  | H : (let '(_, _) := ?x in _) _ = (Ok _, _) |- _ => destruct x
  | H : scan_error _ _ _ _ = (Ok _, _) |- _ => discriminate
  | H : panics _ _ = (Ok _, _) |- _ => discriminate
  | H : (if ?b then _ else _) _ = (Ok _, _) |- _ => destruct b
  end.
Lemma shape_anchor al s x s' : scan_anchor al s = (Ok x, s') -> plain_tok (t_data x).
Proof. unfold scan_anchor. intros H. shape; cbn [t_data]; try ptok; destruct al; ptok. Qed.
Lemma shape_directive s x s' : scan_directive s = (Ok x, s') -> plain_tok (t_data x).
Proof. unfold scan_directive. intros H. shape; cbn [t_data]; ptok. Qed.
Lemma shape_tag s x s' : scan_tag s = (Ok x, s') -> plain_tok (t_data x).
Proof. unfold scan_tag. intros H. shape; cbn [t_data]; ptok. Qed.
Lemma shape_block li s x s' : scan_block_scalar li s = (Ok x, s') -> plain_tok (t_data x).
Proof. unfold scan_block_scalar. intros H. shape; cbn [t_data]; ptok. Qed.
Lemma shape_flow li s x s' : scan_flow_scalar li s = (Ok x, s') -> plain_tok (t_data x).
Proof. unfold scan_flow_scalar. intros H. shape; cbn [t_data]; ptok. Qed.
Lemma shape_plain s x s' : scan_plain_scalar s = (Ok x, s') -> plain_tok (t_data x).
Proof. unfold scan_plain_scalar. intros H. shape; cbn [t_data]; ptok. Qed.

Lemma fetch_anchor_f W del s al : Wok W -> IN W del s -> bget 0 s <> None -> FW W del s (fetch_anchor al) (FQ W del s 1) s.
Proof.
  intros HW I Hb. apply save_ska; auto. intros s' I' _ O' _. apply push_scanned_f; auto.
  - apply scan_anchor_spec; [eapply in_src, I'|rewrite (same_io_bget _ _ _ O'); exact Hb].
  - intros x s2. apply shape_anchor.
Qed.
Lemma fetch_tag_f W del s : Wok W -> IN W del s -> bget 0 s <> None -> FW W del s fetch_tag (FQ W del s 1) s.
Proof.
  intros HW I Hb. apply save_ska; auto. intros s' I' _ O' _. apply push_scanned_f; auto.
  - apply scan_tag_spec; [eapply in_src, I'|rewrite (same_io_bget _ _ _ O'); exact Hb].
  - intros x s2. apply shape_tag.
Qed.
Lemma fetch_flow_scalar_f W del s b : Wok W -> IN W del s -> bget 0 s <> None -> FW W del s (fetch_flow_scalar b) (FQ W del s 1) s.
Proof.
  intros HW I Hb. apply save_ska; auto. intros s' I' _ O' _. apply push_scanned_f; auto.
  - apply scan_flow_scalar_spec; [eapply in_src, I'|rewrite (same_io_bget _ _ _ O'); exact Hb].
  - intros x s2. apply shape_flow.
Qed.
Lemma plain_ok_io s s' : same_io s s' -> flow_level s' = flow_level s -> plain_ok s -> plain_ok s'.
Proof.
  intros O F (P1 & P2 & P3 & P4 & P5). assert (Hb : forall i, bget i s' = bget i s) by (intros; apply same_io_bget, O).
  destruct O as (_ & O2 & O3 & O4 & _ & _ & _ & O8).
  unfold plain_ok, avail, encok, plain_start, at_document_indicator in *. rewrite !Hb, O2, O3, O4, O8, F. auto 10.
Qed.
Lemma fetch_plain_scalar_f W del s : Wok W -> IN W del s -> plain_ok s -> FW W del s fetch_plain_scalar (FQ W del s 1) s.
Proof.
  intros HW I Hb. apply save_ska; auto.
  { apply plain_start_go; apply Hb. }
  intros s' I' _ O' F'. apply push_scanned_f; auto.
  - apply scan_plain_scalar_spec; [eapply in_src, I'|eapply plain_ok_io; eassumption].
  - intros x s2. apply shape_plain.
Qed.
Lemma fetch_block_scalar_f W del s li : Wok W -> IN W del s -> bget 0 s <> None -> FW W del s (fetch_block_scalar li) (FQ W del s 1) s.
Proof.
  intros HW I Hb. apply remove_ska; eauto. intros s' I' _ O' _. apply push_scanned_f; auto.
  - apply scan_block_scalar_spec; [eapply in_src, I'|rewrite (same_io_bget _ _ _ O'); exact Hb].
  - intros x s2. apply shape_block.
Qed.
Lemma fetch_flow_entry_f W del s : Wok W -> IN W del s -> bget 0 s <> None -> FW W del s fetch_flow_entry (FQ W del s 1) s.
Proof.
  intros HW I Hb. apply remove_ska; eauto. intros s' I' _ O' _. apply indicator_FQ; auto; try exact Logic.I; try ptok.
  apply bget_len1. rewrite (same_io_bget _ _ _ O'). exact Hb.
Qed.

Lemma unroll_then W del s col (k : M sst unit) a : Wok W -> IN W del s -> (-1 <= col)%Z ->
  (forall s', IN W del s' -> step 0 0 0 s s' -> same_io s s' -> flow_level s' = flow_level s ->
     (flow_level s' = 0 -> (indent s' <= col)%Z) -> FW W del s' k (FQ W del s' a) s') ->
  FW W del s (unroll_indent col ;; k) (FQ W del s a) s.
Proof.
  intros HW I Hc H. eapply fseq; [apply step_refl|lia|apply unroll_f; auto; apply HW; exact Logic.I|]. cbn beta.
  intros _ s1 (I1 & S1 & O1 & D1 & K1 & F1). eapply flast; [exact S1|lia|apply H; assumption|].
  intros ? s3 [I3 S3]. split; [exact I3|]. eapply step_weaken; [eapply step_trans; eassumption|lia..].
Qed.
Lemma fetch_document_indicator_f W del s d : Wok W -> IN W del s -> (3 <= length (buffer s))%nat -> token_wf d -> plain_tok d ->
  FW W del s (fetch_document_indicator d) (FQ W del s 1) s.
Proof.
  intros HW I Hb Hd Hp. unfold fetch_document_indicator, fetch_directive. apply unroll_then; [exact HW|exact I|lia|]. intros s1 I1 S1 O1 F1 _. apply remove_ska; eauto.
  intros s2 I2 S2 O2 F2. apply indicator_FQ; auto.
  destruct O1 as (_ & E1 & _). destruct O2 as (_ & E2 & _). rewrite E2, E1. exact Hb.
Qed.
Lemma fetch_directive_f W del s : Wok W -> IN W del s -> bget 0 s <> None -> FW W del s fetch_directive (FQ W del s 1) s.
Proof.
  intros HW I Hb. unfold fetch_document_indicator, fetch_directive. apply unroll_then; [exact HW|exact I|lia|]. intros s1 I1 S1 O1 F1 _. apply remove_ska; eauto.
  intros s2 I2 S2 O2 F2. apply push_scanned_f; auto.
  - apply scan_directive_spec; [eapply in_src, I2|]. rewrite (same_io_bget _ _ _ O2), (same_io_bget _ _ _ O1). exact Hb.
  - intros x s3. apply shape_directive.
Qed.

(** ** Block entries, keys and values *)
Lemma roll_then W del s d (k : M sst unit) c1 msg : Wok W -> IN W del s -> token_wf d -> opens d = true ->
  (forall a b, no_start (Mk_token d a b)) -> (forall a b, no_end (Mk_token d a b)) ->
  (forall s', IN W del s' -> step 2 0 0 s s' -> same_io s s' -> FW W del s' k (FQ W del s' 1) s') ->
  FW W del s ((if flow_level s =? 0 then
     if negb (simple_key_allowed s) then scan_error c1 (pos s) msg
     else roll_indent (bcol s) None d (pos s) else ret tt) ;; k) (FQ W del s 3) s.
Proof.
  intros HW I Hd Ho Hs He Hk. 
  eapply fseq with (Q1 := fun _ s' => IN W del s' /\ step 2 0 0 s s' /\ same_io s s'); [apply step_refl|lia| |].
  - assert (Hid : IN W del s /\ step 2 0 0 s s /\ same_io s s).
    { split; [exact I|]. split; [eapply step_weaken; [apply step_refl|lia..]|unfold same_io; auto 10]. }
    destruct (flow_level s =? 0); [|exact Hid]. destruct (negb (simple_key_allowed s)).
    + apply err_keep; [apply I|unfold same_io; auto 10|]. split; apply mark_le_refl.
    + eapply roll_push_f; [apply step_refl|lia| |exact I|apply HW, Hd|exact Ho|exact Hs|exact He].
      intros K HK (B1 & B2 & B3). unfold bcol. lia.
  - intros _ s1 (I1 & S1 & O1). eapply flast; [exact S1|lia|apply Hk; assumption|].
    intros ? s3 [I3 S3]. split; [exact I3|]. eapply step_weaken; [eapply step_trans; eassumption|lia..].
Qed.
Lemma fetch_block_entry_f W del s : Wok W -> IN W del s -> bget 0 s <> None -> FW W del s fetch_block_entry (FQ W del s 3) s.
Proof.
  intros HW I Hb. unfold fetch_block_entry, FW. apply wp_bind, wp_get.
  apply roll_then; auto; try exact Logic.I; try reflexivity. intros s1 I1 S1 O1. apply remove_ska; eauto.
  intros s2 I2 S2 O2 F2. apply indicator_FQ; auto; try exact Logic.I; try ptok.
  apply bget_len1. rewrite (same_io_bget _ _ _ O2), (same_io_bget _ _ _ O1). exact Hb.
Qed.
Lemma fetch_key_f W del s : Wok W -> IN W del s -> bget 0 s <> None -> FW W del s fetch_key (FQ W del s 3) s.
Proof.
  intros HW I Hb. unfold fetch_key, FW. apply wp_bind, wp_get.
  apply roll_then; auto; try exact Logic.I; try reflexivity. intros s1 I1 S1 O1. apply remove_ska; eauto.
  intros s2 I2 S2 O2 F2. apply indicator_FQ; auto; try exact Logic.I; try ptok.
  apply bget_len1. rewrite (same_io_bget _ _ _ O2), (same_io_bget _ _ _ O1). exact Hb.
Qed.

(** The current simple key gives a place to insert tokens. *)
Lemma key_place W del s k r : IN W del s -> simple_keys s = k :: r -> sk_possible k = true ->
  place del s (N.to_nat (sk_token k)) (sk_mark k).
Proof.
  intros (I & _) E Hp. pose proof (si_keys _ _ _ I) as Hk. pose proof (si_pairs _ _ _ I) as Hpr. rewrite E in *.
  inversion Hk as [|? ? K1 K2]; subst. destruct (K1 Hp) as (H1 & H2 & H3 & H4 & H5 & _).
  unfold place. split; [lia|]. split; [lia|]. split; [exact H3|]. split; [exact H4|]. split; [exact H5|].
  rewrite E. constructor.
  - intros _. split; [lia|apply mark_le_refl].
  - inversion Hpr as [|? ? P1 _]; subst. rewrite Forall_forall in *. intros q Hq Hqp.
    destruct (P1 q Hq Hp Hqp). split; [lia|assumption].
Qed.
Lemma place_koff del s j m ks : Forall2 koff (simple_keys s) ks -> place del s j m -> place del (set_simple_keys ks s) j m.
Proof.
  intros Hk (P1 & P2 & P3 & P4 & P5 & P6). unfold place, all in *. fld. repeat (split; [assumption|]).
  eapply koff_Forall; eassumption.
Qed.
Lemma insert_ok W del s n m t : IN W del s -> place del s (N.to_nat n) m ->
  insert_token n t s = (Ok tt, set_tokens (firstn (N.to_nat n - length del) (tokens s) ++ t :: skipn (N.to_nat n - length del) (tokens s)) s).
Proof.
  intros (I & _) (P1 & P2 & P3 & _). unfold insert_token. pose proof (si_num _ _ _ I) as Hn. unfold all in P3. rewrite app_length in P3.
  destruct (N.ltb_spec n (tokens_parsed s)); [lia|].
  replace (N.to_nat (n - tokens_parsed s)) with (N.to_nat n - length del)%nat by lia.
  destruct (Nat.leb_spec (N.to_nat n - length del) (length (tokens s))); [reflexivity|lia].
Qed.

Lemma fetch_value_f W del s : Wok W -> IN W del s -> bget 0 s <> None -> FW W del s fetch_value (FQ W del s 4) s.
Proof.
  intros HW I Hb. unfold fetch_value, FW. apply wp_bind, wp_get.
  destruct (simple_keys s) as [|k r] eqn:E.
  { exfalso. destruct I as (I & I1 & _). pose proof (si_lvl _ _ _ I I1) as H. rewrite E in H. discriminate. }
  destruct (sk_possible k) eqn:Ep.
  - pose proof (key_place W del s k r I E Ep) as P.
    assert (Hm : m_col (sk_mark k) <= m_col (pos s) + N.of_nat (vol s) \/ In k (simple_keys s)) by (right; rewrite E; left; reflexivity).
    eapply fseq with (Q1 := fun _ s' => IN W del s' /\ step 3 0 0 s s' /\ same_io s s'); [apply step_refl|lia| |].
    2:{ intros _ s1 (I1 & S1 & O1). eapply flast; [exact S1|lia|apply indicator_FQ; auto; try exact Logic.I; try ptok|].
        - apply bget_len1. rewrite (same_io_bget _ _ _ O1). exact Hb.
        - intros ? s3 [I3 S3]. split; [exact I3|]. eapply step_weaken; [eapply step_trans; eassumption|lia..]. }
    (* insert TKey *)
    unfold FW. apply wp_bind. unfold wp at 1. rewrite (insert_ok W del s _ _ _ I P).
    pose proof (IN_ins W del s _ _ TKey (indent s) (indents s) I P (HW TKey Logic.I)) as H1.
    specialize (H1 (fun _ _ => eq_refl) (fun _ _ => eq_refl) eq_refl eq_refl).
    specialize (H1 ltac:(apply I; apply I)). cbn zeta in H1. rewrite set_ind_id in H1.
    pose proof (step_ins s (N.to_nat (sk_token k) - length del) (Mk_token TKey (sk_mark k) (sk_mark k)) (indent s) (indents s)) as S1.
    rewrite set_ind_id in S1. set (s1 := set_tokens _ s) in *. destruct H1 as [I1 P1].
    (* turn the key off *)
    apply wp_bind, wp_modify.
    assert (Hk : Forall2 koff (simple_keys s1) (sk_off k :: r)).
    { change (simple_keys s1) with (simple_keys s). rewrite E. constructor; [right; reflexivity|apply koff_refl]. }
    pose proof (IN_koff _ _ _ _ I1 Hk) as I2. pose proof (place_koff _ _ _ _ _ Hk P1) as P2.
    pose proof (step_koff _ _ Hk) as S2.
    assert (O2 : same_io s (set_simple_keys (sk_off k :: r) s1)) by (unfold same_io, s1; auto 10).
    set (s2 := set_simple_keys _ s1) in *.
    assert (S12 : step 1 0 0 s s2) by (eapply step_weaken; [eapply step_trans; [exact S1|exact S2]|lia..]).
    (* roll *)
    assert (Hend : forall s3, IN W del s3 -> step 2 0 0 s2 s3 -> same_io s s3 ->
       wp (modify (set_simple_key_allowed false)) (fun _ s' => IN W del s' /\ step 3 0 0 s s' /\ same_io s s') (ferr W del s) (fpanic s) s3).
    { intros s3 I3 S3 O3. apply (ska_f W del s s3); [eauto|exact I3|]. intros s4 I4 S4 O4 F4. split; [exact I4|].
      split; [|eapply same_io_trans; eassumption].
      eapply step_weaken; [eapply step_trans; [exact S12|eapply step_trans; [exact S3|exact S4]]|lia..]. }
    apply wp_bind. unfold roll_indent. apply wp_bind, wp_get.
    assert (Hid : step 2 0 0 s2 s2) by (eapply step_weaken; [apply step_refl|lia..]).
    destruct (negb (flow_level s2 =? 0)); [apply wp_ret, Hend; assumption|].
    destruct (indent s2 <? Z.of_N (m_col (sk_mark k)))%Z eqn:Ei; [|apply wp_ret, Hend; assumption].
    apply wp_bind, wp_modify. apply wp_bind.
    destruct (Z.of_N (m_col (sk_mark k)) <=? 2147483647)%Z eqn:Ec.
    2:{ apply wp_panics. right. split; [right; reflexivity|]. intros K HK1 (B1 & B2 & B3). rewrite E in B3.
        inversion B3 as [|? ? B4 _]; subst. specialize (B4 Ep). cbn beta in B4. lia. }
    apply wp_ret. apply wp_bind, wp_modify.
    pose proof (IN_ins W del s2 _ _ TBlockMappingStart (Z.of_N (m_col (sk_mark k))) (indent s2 :: indents s2) I2 P2 (HW TBlockMappingStart Logic.I)) as H3.
    specialize (H3 (fun _ _ => eq_refl) (fun _ _ => eq_refl) eq_refl eq_refl).
    assert (Hio : ind_ok (Z.of_N (m_col (sk_mark k)) :: indent s2 :: indents s2)) by (apply ind_ok_push; [apply I2; apply I2|lia]).
    specialize (H3 Hio). cbn zeta in H3. destruct H3 as [I3 P3].
    pose proof (step_ins s2 (N.to_nat (sk_token k) - length del) (Mk_token TBlockMappingStart (sk_mark k) (sk_mark k)) (Z.of_N (m_col (sk_mark k))) (indent s2 :: indents s2)) as S3.
    change (set_indent (Z.of_N (m_col (sk_mark k))) (set_indents (indent s2 :: indents s2) s2)) with
      (set_ind (Z.of_N (m_col (sk_mark k))) (indent s2 :: indents s2) s2) in *.
    unfold wp at 1.
    match goal with |- context [insert_token ?n ?t ?x] => assert (Hins : insert_token n t x = 
      (Ok tt, set_tokens (firstn (N.to_nat n - length del) (tokens x) ++ t :: skipn (N.to_nat n - length del) (tokens x)) x)) end.
    { destruct P2 as (Q1 & Q2 & Q3 & _). destruct I2 as (I2 & _). pose proof (si_num _ _ _ I2) as Hn.
      unfold insert_token. change (tokens_parsed (set_ind (Z.of_N (m_col (sk_mark k))) (indent s2 :: indents s2) s2)) with (tokens_parsed s2).
      change (tokens (set_ind (Z.of_N (m_col (sk_mark k))) (indent s2 :: indents s2) s2)) with (tokens s2).
      unfold all in Q3. rewrite app_length in Q3.
      destruct (N.ltb_spec (sk_token k) (tokens_parsed s2)); [lia|].
      replace (N.to_nat (sk_token k - tokens_parsed s2)) with (N.to_nat (sk_token k) - length del)%nat by lia.
      destruct (Nat.leb_spec (N.to_nat (sk_token k) - length del) (length (tokens s2))); [reflexivity|lia]. }
    rewrite Hins. change (tokens (set_ind (Z.of_N (m_col (sk_mark k))) (indent s2 :: indents s2) s2)) with (tokens s2).
    apply Hend.
    + exact I3.
    + eapply step_weaken; [exact S3|cbn [length]; lia..].
    + eapply same_io_trans; [exact O2|]. unfold same_io; auto 10.
  - eapply fseq with (Q1 := fun _ s' => IN W del s' /\ step 2 0 0 s s' /\ same_io s s'); [apply step_refl|lia| |].
    2:{ intros _ s1 (I1 & S1 & O1). eapply flast; [exact S1|lia|apply indicator_FQ; auto; try exact Logic.I; try ptok|].
        - apply bget_len1. rewrite (same_io_bget _ _ _ O1). exact Hb.
        - intros ? s3 [I3 S3]. split; [exact I3|]. eapply step_weaken; [eapply step_trans; eassumption|lia..]. }
    eapply fseq with (Q1 := fun _ s' => IN W del s' /\ step 2 0 0 s s' /\ same_io s s'); [apply step_refl|lia| |].
    + assert (Hid : IN W del s /\ step 2 0 0 s s /\ same_io s s).
      { split; [exact I|]. split; [eapply step_weaken; [apply step_refl|lia..]|unfold same_io; auto 10]. }
      destruct (flow_level s =? 0); [|exact Hid]. destruct (negb (simple_key_allowed s)).
      * apply err_keep; [apply I|unfold same_io; auto 10|]. split; apply mark_le_refl.
      * eapply roll_push_f; [apply step_refl|lia| |exact I|apply HW; exact Logic.I|reflexivity|reflexivity|reflexivity].
        intros K HK (B1 & B2 & B3). unfold bcol. lia.
    + intros _ s1 (I1 & S1 & O1). apply (ska_f W del s s1); [eauto|exact I1|]. intros s2 I2 S2 O2 _.
      split; [exact I2|]. split; [|eapply same_io_trans; eassumption].
      eapply step_weaken; [eapply step_trans; [exact S1|exact S2]|lia..].
Qed.

(** ** Flow collections *)
Lemma skip1_ok s : bget 0 s <> None -> exists s1, skip_chars 1 s = (Ok tt, s1) /\ adv s s1 /\ strict s s1.
Proof.
  intros H. destruct (bget0 _ H) as (c & b & Hb). destruct (consume_front s c b _ Hb eq_refl) as [A B].
  eexists. split; [cbn [skip_chars]; unfold bind, skip_char; rewrite Hb; reflexivity|]. split; assumption.
Qed.
Lemma fetch_flow_start_f W del s d : Wok W -> IN W del s -> bget 0 s <> None -> token_wf d -> plain_tok d ->
  FW W del s (fetch_flow_collection_start d) (FQ W del s 1) s.
Proof.
  intros HW I Hb Hd (D1 & D2 & D3 & D4). unfold fetch_flow_collection_start.
  eapply fseq; [apply step_refl|lia|apply save_f; assumption|]. cbn beta.
  intros _ s1 (I1 & S1 & O1 & F1). unfold FW. apply wp_bind. unfold increase_flow_level.
  apply wp_bind, wp_modify. apply wp_bind, wp_gets.
  set (nk := Mk_sk false false 0 mark0). change (flow_level (set_simple_keys (nk :: simple_keys s1) s1)) with (flow_level s1).
  destruct (flow_level s1 =? 2147483647) eqn:Ef.
  { apply wp_panics. right. split; [left; reflexivity|]. intros K HK (B1 & _).
    assert (vol s <> 0)%nat by (apply bget_len1 in Hb; unfold vol; lia). lia. }
  apply wp_modify. fld. apply wp_bind, wp_modify.
  assert (I2 : IN W del (set_simple_keys (nk :: simple_keys s1) (set_flow_level (flow_level s1 + 1) s1))).
  { apply IN_keys; auto.
    - cbn [length]. destruct I1 as (I1 & I1' & _). rewrite (si_lvl _ _ _ I1 I1'). lia.
    - constructor; [intros Hp; discriminate|]. apply (si_keys _ _ _ (proj1 I1)).
    - constructor; [|apply (si_pairs _ _ _ (proj1 I1))]. apply Forall_forall. intros q _ Hp. discriminate. }
  assert (S2 : step 0 1 0 s1 (set_simple_keys (nk :: simple_keys s1) (set_flow_level (flow_level s1 + 1) s1))).
  { apply step_same; fld; auto; try lia.
    - unfold same_io; auto 10.
    - unfold ti. fld. lia.
    - intros q [<-|Hq] Hp; [discriminate|auto]. }
  change (set_flow_level (flow_level s1 + 1) (set_simple_keys (nk :: simple_keys s1) s1)) with
         (set_simple_keys (nk :: simple_keys s1) (set_flow_level (flow_level s1 + 1) s1)).
  assert (Hb2 : bget 0 (set_simple_keys (nk :: simple_keys s1) (set_flow_level (flow_level s1 + 1) s1)) <> None).
  { change (bget 0 s1 <> None). rewrite (same_io_bget _ _ _ O1). exact Hb. }
  set (s2 := set_simple_keys _ _) in *.
  pose proof (IN_io _ _ _ _ I2 (proj1 (adv_ska s2 true))) as I3. pose proof (step_adv _ _ (adv_ska s2 true)) as S3.
  assert (Hb3 : bget 0 (set_simple_key_allowed true s2) <> None) by exact Hb2.
  set (s3 := set_simple_key_allowed true s2) in *.
  unfold fetch_indicator. apply wp_bind, wp_gets. apply wp_bind. destruct (skip1_ok s3 Hb3) as (s4 & E4 & A4 & T4).
  unfold wp at 1. rewrite E4. apply wp_bind, wp_gets. unfold push_token. apply wp_modify.
  fold (add_tok (Mk_token d (pos s3) (pos s4)) s4). split.
  - apply (IN_push0 W del s3 s4); auto; cbn [t_start t_end t_data]; auto; try apply A4.
    + apply advE_mark_le, A4.
    + apply mark_le_refl.
  - eapply step_weaken; [eapply step_trans; [exact S1|eapply step_trans; [exact S2|eapply step_trans; [exact S3|eapply step_trans; [apply step_adv1; eassumption|apply step_push0]]]]|lia..].
Qed.
Lemma fetch_flow_end_f W del s d : Wok W -> IN W del s -> bget 0 s <> None -> token_wf d -> plain_tok d ->
  FW W del s (fetch_flow_collection_end d) (FQ W del s 1) s.
Proof.
  intros HW I Hb Hd Hp. unfold fetch_flow_collection_end.
  eapply fseq; [apply step_refl|lia|apply remove_f', I|]. cbn beta. intros _ s1 (I1 & S1 & O1 & F1).
  unfold decrease_flow_level. unfold FW. apply wp_bind, wp_modify.
  set (s2 := if flow_level s1 =? 0 then s1 else set_simple_keys (tl (simple_keys s1)) (set_flow_level (flow_level s1 - 1) s1)).
  assert (H2 : IN W del s2 /\ step 0 0 0 s1 s2 /\ same_io s1 s2).
  { unfold s2. destruct (flow_level s1 =? 0) eqn:Ef.
    - split; [exact I1|]. split; [apply step_refl|unfold same_io; auto 10].
    - pose proof (proj1 I1) as J. pose proof (si_lvl _ _ _ J (proj1 (proj2 I1))) as Hl.
      destruct (simple_keys s1) as [|k r] eqn:Ek; [discriminate|]. cbn [tl length] in *.
      pose proof (si_keys _ _ _ J) as Hk. pose proof (si_pairs _ _ _ J) as Hpr. rewrite Ek in *.
      inversion Hk; inversion Hpr; subst. split; [apply IN_keys; auto; lia|].
      split; [|unfold same_io; auto 10]. apply step_same; fld; auto; try lia.
      + unfold same_io; auto 10.
      + unfold ti. fld. lia.
      + intros q Hq _. left. rewrite Ek. right. exact Hq. }
  destruct H2 as (I2 & S2 & O2). clearbody s2.
  eapply fseq with (Q1 := fun _ s' => IN W del s' /\ step 0 0 0 s s' /\ same_io s s').
  - eapply step_trans; [exact S1|exact S2].
  - lia.
  - apply (ska_f W del s2 s2); [eauto|exact I2|]. intros s3 I3 S3 O3 _. split; [exact I3|]. split.
    + eapply step_weaken; [eapply step_trans; [exact S1|eapply step_trans; [exact S2|exact S3]]|lia..].
    + eapply same_io_trans; [exact O1|]. eapply same_io_trans; eassumption.
  - intros _ s3 (I3 & S3 & O3). eapply flast; [exact S3|lia|apply indicator_FQ; auto|].
    + apply bget_len1. rewrite (same_io_bget _ _ _ O3). exact Hb.
    + intros ? s4 [I4 S4]. split; [exact I4|]. eapply step_weaken; [eapply step_trans; eassumption|lia..].
Qed.

(** ** Start and end of the stream *)
(** What a call of [fetch_next_token] gives: the stream goes on or has just ended. *)
Definition FN W del s (_ : unit) (s' : sst) : Prop :=
  SInv W del s' /\ token_available s' = false /\ step 4 0 (-1) s s' /\
  (IN W del s' \/ exists t r, tokens s' = r ++ [t] /\ is_stream_end t = true).
Lemma FQ_FN W del s a m s1 : (a <= 4)%Z -> FW W del s m (FQ W del s a) s1 -> FW W del s m (FN W del s) s1.
Proof.
  intros H F. eapply wp_conseq; [exact F| |auto|auto]. intros ? s' [I S]. split; [apply I|]. split; [apply I|].
  split; [eapply step_weaken; [exact S|lia..]|left; exact I].
Qed.
Lemma fetch_stream_start_f W del s : Wok W -> SInv W del s -> token_available s = false -> stream_start_produced s = false ->
  FW W del s fetch_stream_start (FN W del s) s.
Proof.
  intros HW I Ha Hst. unfold FW, fetch_stream_start. apply wp_modify. cbn zeta. fld.
  destruct (si_fresh _ _ _ I Hst) as (F1 & F2 & F3 & F4).
  assert (Hd : del = [] /\ tokens s = []) by (unfold all in F3; apply app_eq_nil in F3; exact F3). destruct Hd as [-> Ht].
  rewrite F2, Ht. cbn [app]. set (t := Mk_token (TStreamStart (enc s)) (pos s) (pos s)). set (s' := set_tokens _ _).
  assert (Hall : all [] s' = [t]) by reflexivity.
  assert (Hnk : Forall (on (key_ok [] s')) (simple_keys s')) by (constructor; [intros Hp; discriminate|constructor]).
  assert (J : SInv W [] s').
  { destruct I. constructor; rewrite ?Hall; auto.
    - intros H. discriminate.
    - intros _. change (flow_level s') with (flow_level s). rewrite F1. reflexivity.
    - intros _. change (indents s') with (indents s). rewrite F4. cbn. auto.
    - intros _. exists t, []. auto.
    - change (indents s') with (indents s). rewrite F4. reflexivity.
    - cbn [ordered t_start t_end t]. split; [unfold mark_le, mark0; cbn; lia|]. split; apply mark_le_refl.
    - constructor; [|constructor]. apply HW. exact Logic.I.
    - constructor; [constructor|constructor].
    - intros H. change (token_available s = true) in H. congruence.
    - intros a x b H1 H2. destruct a as [|? [|? ?]]; inversion H1; subst. discriminate. }
  split; [exact J|]. split; [exact Ha|]. split.
  - assert (Hm : meas s' = meas s) by reflexivity. 
    constructor; auto; try (change (vol s') with (vol s)); try (change (blen s') with (blen s));
      try (change (flow_level s') with (flow_level s)); try (change (pos s') with (pos s)); try lia.
    + unfold ti. rewrite Ht. change (tokens s') with [t]. change (indents s') with (indents s). cbn [length]. lia.
    + unfold mu, ended. rewrite Hm, Hst. change (stream_start_produced s') with true. change (stream_end_produced s') with (stream_end_produced s).
      rewrite Ht. change (tokens s') with [t]. cbn [existsb is_stream_end t t_data]. unfold b2z. destruct (stream_end_produced s); cbn; lia.
    + intros k [<-|[]] Hp. discriminate.
    + apply mark_le_refl.
  - left. split; [exact J|]. split; [reflexivity|]. split; [|exact Ha]. rewrite Hall. repeat constructor.
Qed.

Lemma IN_pos W del s m : IN W del s -> mark_le (pos s) m -> Forall (on (fun k => lex_lt (sk_mark k) m)) (simple_keys s) ->
  IN W del (set_pos m s).
Proof.
  intros (I & I1 & I2 & I3) Hm Hk. split; [|auto].
  pose proof (no_end_split W del s I I2) as Hne. pose proof (si_ord _ _ _ I) as Ho. pose proof (si_keys _ _ _ I) as Hkk.
  constructor; try apply I.
  - eapply ordered_hi; eassumption.
  - rewrite Forall_forall in *. intros k Hin Hp. destruct (Hkk k Hin Hp) as (K1 & K2 & K3 & K4 & K5 & K6).
    unfold key_ok. split; [exact K1|]. split; [exact K2|]. split; [exact K3|]. split; [exact K4|].
    split; [eapply ordered_hi; eassumption|]. left. apply Hk; assumption.
  - intros a t b H1 H2. exfalso. exact (Hne a t b H1 H2).
Qed.
Lemma fetch_stream_end_f W del s : Wok W -> IN W del s -> bget 0 s = None ->
  FW W del s fetch_stream_end (FN W del s) s.
Proof.
  intros HW I Hb. unfold fetch_stream_end, FW. apply wp_bind, wp_modify.
  assert (Hbuf : buffer s = []) by (unfold bget in Hb; destruct (buffer s); [reflexivity|discriminate]).
  assert (Hlex : Forall (on (fun k => lex_lt (sk_mark k) (pos s))) (simple_keys s)).
  { eapply Forall_on; [apply (si_keys _ _ _ (proj1 I))|]. intros k _ (_ & _ & _ & _ & _ & [H|H]); [exact H|contradiction]. }
  set (s1 := if m_col (pos s) =? 0 then s else set_pos (Mk_mark (m_index (pos s)) (m_line (pos s) + 1) 0) s).
  assert (H1 : IN W del s1 /\ step 0 0 0 s s1 /\ (buffer s1 = [] /\ m_col (pos s1) = 0) /\ Forall (on (fun k => m_line (sk_mark k) < m_line (pos s1))) (simple_keys s1)).
  { unfold s1. destruct (N.eqb_spec (m_col (pos s)) 0) as [E|E].
    - split; [exact I|]. split; [apply step_refl|]. split; [auto|]. eapply Forall_on; [exact Hlex|].
      intros k _ H. cbn beta in *. unfold lex_lt in H. lia.
    - set (m := Mk_mark _ _ _).
      assert (Hm : mark_le (pos s) m) by (unfold mark_le, m; cbn [m_index m_line m_col]; lia).
      assert (Hl : Forall (on (fun k => m_line (sk_mark k) < m_line m)) (simple_keys s)).
      { eapply Forall_on; [exact Hlex|]. intros k _ H. unfold lex_lt, m in *. cbn [m_line]. cbn beta in *. lia. }
      split; [apply IN_pos; auto; eapply Forall_on; [exact Hl|]; intros k _ H; left; exact H|].
      split; [|split; [auto|exact Hl]].
      constructor; auto; try lia; try (unfold ti, mu, ended, meas, vol, sbytes, blen; fld; lia).
      + unfold vol, sbytes. fld. cbn [m_col m]. lia.
      + intros _. unfold blen, sbytes. fld. cbn [m_index m]. lia. }
  destruct H1 as (I1 & S1 & (B1 & C1) & L1). clearbody s1. clear Hlex.
  eapply fseq; [exact S1|lia|apply unroll_f; [exact I1|apply HW; exact Logic.I|lia]|]. cbn beta.
  intros _ s2 (I2 & S2 & O2 & D2 & K2 & F2).
  eapply fseq; [eapply step_trans; [exact S1|exact S2]|lia|apply remove_f, I2|]. cbn beta.
  intros _ s3 (I3 & S3 & k & r & E & Hs3). unfold FW. apply wp_bind, wp_modify. apply wp_bind, wp_gets.
  unfold push_token. apply wp_modify. 
  assert (Hpos : pos s3 = pos s1) by (rewrite Hs3; apply O2).
  assert (Hind : indents s3 = indents s2 /\ indent s3 = indent s2 /\ flow_level s3 = flow_level s2) by (rewrite Hs3; auto).
  assert (Hkeys : Forall (on (fun k => m_line (sk_mark k) < m_line (pos s3))) (simple_keys s3)).
  { rewrite Hpos. eapply koff_Forall with (ks := simple_keys s2); [|rewrite K2; exact L1].
    rewrite Hs3, E. constructor; [right; reflexivity|apply koff_refl]. }
  assert (I4 : IN W del (set_simple_key_allowed false s3)) by (eapply IN_io; [exact I3|apply adv_ska]).
  assert (S4 : step 0 0 0 s (set_simple_key_allowed false s3)).
  { eapply step_weaken; [eapply step_trans; [exact S1|eapply step_trans; [exact S2|eapply step_trans; [exact S3|apply step_adv, (adv_ska s3 false)]]]|lia..]. }
  assert (Hflow : flow_level (set_simple_key_allowed false s3) = 0 -> indents (set_simple_key_allowed false s3) = []).
  { destruct Hind as (Ha & Hc & Hd). change (flow_level s3 = 0 -> indents s3 = []). rewrite Ha, Hd. intros H.
    specialize (D2 H). pose proof (si_ind _ _ _ (proj1 I2) (proj1 (proj2 I2))) as Hi.
    apply (ind_ok_neg1 _ _ Hi D2). }
  change (pos (set_simple_key_allowed false s3)) with (pos s3). change (simple_keys s3) with (simple_keys (set_simple_key_allowed false s3)) in Hkeys.
  change (pos s3) with (pos (set_simple_key_allowed false s3)) in Hkeys |- *.
  generalize dependent (set_simple_key_allowed false s3). clear - HW. intros s4 Hk I4 S4 Hfl.
  set (t := Mk_token TStreamEnd (pos s4) (pos s4)). fold (add_tok t s4).
  destruct I4 as (I & Ist & Ine & Iav).
  assert (Ha : all del (add_tok t s4) = all del s4 ++ [t]) by (unfold all, add_tok; fld; apply app_assoc).
  assert (Hle : Forall no_end del /\ Forall no_end (tokens s4)) by (apply Forall_app, Ine).
  assert (J : SInv W del (add_tok t s4)).
  { destruct I. constructor; rewrite ?Ha; auto.
    - intros H. exfalso. change (stream_start_produced s4 = false) in H. congruence.
    - intros _. destruct (si_head Ist) as (x & rest & E & E1 & E2). exists x, (rest ++ [t]). rewrite E. split; [reflexivity|].
      split; [exact E1|]. apply Forall_app. split; [exact E2|]. repeat constructor.
    - rewrite depth_app, si_bal. reflexivity.
    - eapply ordered_app; [exact si_ord|]. cbn [ordered t t_start t_end]. split; [apply mark_le_refl|]. split; apply mark_le_refl.
    - apply Forall_app. split; [exact si_W|]. constructor; [apply HW; exact Logic.I|constructor].
    - eapply Forall_on; [exact si_keys|]. intros k _ (K1 & K2 & K3 & K4 & K5 & K6). unfold key_ok. rewrite Ha.
      change (tokens_parsed (add_tok t s4)) with (tokens_parsed s4). change (pos (add_tok t s4)) with (pos s4). change (buffer (add_tok t s4)) with (buffer s4).
      split; [exact K1|]. split; [exact K2|]. split; [rewrite app_length; lia|].
      rewrite firstn_app, skipn_app. replace (N.to_nat (sk_token k) - length (all del s4))%nat with 0%nat by lia.
      split; [cbn [firstn]; rewrite app_nil_r; exact K4|]. split; [|exact K6].
      eapply ordered_app; [exact K5|]. cbn [ordered skipn t t_start t_end]. split; [apply mark_le_refl|]. split; apply mark_le_refl.
    - intros H. exfalso. change (token_available s4 = true) in H. congruence.
    - intros a x b H1 H2. split; [|split; [exact Hk|exact Hfl]].
      destruct b as [|y b]; [reflexivity|exfalso].
      assert (Hin : In x (all del s4)).
      { assert (exists q z, y :: b = q ++ [z]) as (q & z & Eq).
        { destruct (exists_last (l := y :: b)) as (q & z & Eq); [discriminate|]. eauto. }
        rewrite Eq, app_comm_cons, app_assoc in H1. apply app_inj_tail in H1. destruct H1 as [H1 _]. rewrite H1. apply in_elt. }
      rewrite Forall_forall in Ine. specialize (Ine x Hin). unfold no_end in Ine. congruence. }
  split; [exact J|]. split; [exact Iav|]. split; [|right; exists t, (tokens s4); auto].
  pose proof (step_push0 s4 t) as S5. 
  assert (Hmu : (mu (add_tok t s4) <= mu s4 - 1)%Z).
  { unfold mu, ended, add_tok. fld. change (meas (set_tokens (tokens s4 ++ [t]) s4)) with (meas s4).
    rewrite existsb_app. cbn [existsb is_stream_end t t_data]. rewrite !orb_true_r.
    assert (existsb is_stream_end (tokens s4) = false) as ->.
    { destruct (existsb is_stream_end (tokens s4)) eqn:E; [|reflexivity]. apply existsb_exists in E. destruct E as (x & Hx & Hx2).
      destruct Hle as [_ Hle]. rewrite Forall_forall in Hle. specialize (Hle x Hx). unfold no_end in Hle. congruence. }
    assert (stream_end_produced s4 = false) as ->.
    { rewrite (si_ended _ _ _ I). destruct (existsb is_stream_end del) eqn:E; [|reflexivity]. apply existsb_exists in E. destruct E as (x & Hx & Hx2).
      destruct Hle as [Hle _]. rewrite Forall_forall in Hle. specialize (Hle x Hx). unfold no_end in Hle. congruence. }
    cbn. lia. }
  pose proof (step_trans _ _ _ _ _ _ _ _ _ S4 S5) as S6.
  destruct S6. constructor; auto; try lia. destruct S4. lia.
Qed.
