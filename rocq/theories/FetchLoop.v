(** FetchLoop.v -- fetch_next_token, fetch_more_tokens, scan, peek and skip_token keep the scanner
    invariant, terminate, and bound the number of tokens. *)
From Coq Require Import ZifyBool ZifyNat ZifyN.
From Verif Require Import Base Utf Chars State Reader Scanner Wp ReaderFacts Spec_Tokens ScanFacts TokFacts FetchFacts FetchWp.

Lemma chk_some' c o : chk c o = true -> o <> None.
Proof. destruct o; [discriminate|]. cbn. discriminate. Qed.
Lemma chk_eq c o : chk c o = true -> o = Some c.
Proof. destruct o as [d|]; cbn; [|discriminate]. intros H. apply N.eqb_eq in H. congruence. Qed.

Lemma fetch_next_f W del s : Wok W -> SInv W del s -> token_available s = false -> Forall no_end (all del s) ->
  FW W del s fetch_next_token (FN W del s) s.
Proof.
  intros HW I Ha Hne. unfold fetch_next_token.
  eapply fseq; [apply step_refl|lia|apply f_io; [exact I|apply cache_spec, I]|]. cbn beta.
  intros _ s1 [A1 _]. pose proof (SInv_io _ _ _ _ I (proj1 A1)) as I1. pose proof (step_adv _ _ A1) as S1.
  assert (Ha1 : token_available s1 = false /\ Forall no_end (all del s1)).
  { destruct (frame_eqs _ _ (ae_frame _ _ (proj1 A1))) as (_ & _ & _ & F4 & _ & F6 & _). unfold all. rewrite F6, F4. auto. }
  destruct Ha1 as [Ha1 Hne1]. unfold FW. apply wp_bind, wp_get.
  destruct (stream_start_produced s1) eqn:Est; cbn [negb].
  2:{ eapply flast; [exact S1|lia|apply fetch_stream_start_f; assumption|]. intros ? s2 (J1 & J2 & J3 & J4).
      split; [exact J1|]. split; [exact J2|]. split; [|exact J4]. eapply step_weaken; [eapply step_trans; eassumption|lia..]. }
  assert (IN1 : IN W del s1) by (repeat (split; [assumption|]); assumption).
  eapply fseq; [exact S1|lia|apply f_io; [exact I1|apply scan_to_next_token_spec, I1]|]. cbn beta.
  intros _ s2 [A2 _]. pose proof (IN_io _ _ _ _ IN1 (proj1 A2)) as I2.
  assert (S2 : step 0 0 0 s s2) by (eapply step_weaken; [eapply step_trans; [exact S1|apply step_adv, A2]|lia..]).
  eapply fseq; [exact S2|lia|apply stale_f, I2|]. cbn beta. intros _ s3 (ks & -> & Hks & Hst).
  pose proof (IN_koff _ _ _ _ I2 Hks) as I3.
  assert (S3 : step 0 0 0 s (set_simple_keys ks s2)) by (eapply step_weaken; [eapply step_trans; [exact S2|apply step_koff, Hks]|lia..]).
  set (s3 := set_simple_keys ks s2) in *. clearbody s3. unfold FW. apply wp_bind, wp_get.
  eapply fseq; [exact S3|lia|apply unroll_f; [exact I3|apply HW; exact Logic.I|unfold bcol; lia]|]. cbn beta.
  intros _ s4 (I4 & S4' & O4 & _ & _ & F4).
  assert (S4 : step 0 0 0 s s4) by (eapply step_weaken; [eapply step_trans; eassumption|lia..]).
  eapply fseq; [exact S4|lia|apply f_io; [apply I4|apply cache_spec, I4]|]. cbn beta.
  intros _ s5 [A5 [V5 R5]]. pose proof (IN_io _ _ _ _ I4 (proj1 A5)) as I5.
  assert (S5 : step 0 0 0 s s5) by (eapply step_weaken; [eapply step_trans; [exact S4|apply step_adv, A5]|lia..]).
  clear - HW I5 S5 V5. rename s5 into s5.
  assert (Hlift : forall m, FW W del s5 m (FN W del s5) s5 -> FW W del s m (FN W del s) s5).
  { intros m H. eapply flast; [exact S5|lia|exact H|]. intros ? s2 (J1 & J2 & J3 & J4).
    split; [exact J1|]. split; [exact J2|]. split; [|exact J4]. eapply step_weaken; [eapply step_trans; eassumption|lia..]. }
  unfold FW. apply wp_bind, wp_get. cbn zeta. apply Hlift. clear Hlift S5 s. rename s5 into s.
  set (o := bget 0 s) in *.
  destruct (is_z o) eqn:Ez.
  { apply fetch_stream_end_f; auto. unfold o, is_z in Ez. destruct (bget 0 s); [discriminate|reflexivity]. }
  assert (Hb : bget 0 s <> None) by (unfold o, is_z in Ez; destruct (bget 0 s); congruence).
  assert (Hb3 : forall c d e, chk c o && chk d (bget 1 s) && chk e (bget 2 s) = true -> (3 <= length (buffer s))%nat).
  { intros c d e H. apply andb_true_iff in H. destruct H as [_ H]. apply chk_some' in H. apply bget_len in H. lia. }
  destruct ((m_col (pos s) =? 0) && chk cPCT o) eqn:E1.
  { eapply FQ_FN; [|apply fetch_directive_f; auto]; lia. }
  destruct ((m_col (pos s) =? 0) && chk cMINUS o && chk cMINUS (bget 1 s) && chk cMINUS (bget 2 s) && is_blankz (bget 3 s)) eqn:E2.
  { eapply FQ_FN; [|apply fetch_document_indicator_f; auto; try exact Logic.I; try ptok]; [lia|].
    apply (Hb3 cMINUS cMINUS cMINUS). repeat (apply andb_true_iff in E2; destruct E2 as [E2 ?]). apply andb_true_iff; split; [apply andb_true_iff; split|]; assumption. }
  destruct ((m_col (pos s) =? 0) && chk cDOT o && chk cDOT (bget 1 s) && chk cDOT (bget 2 s) && is_blankz (bget 3 s)) eqn:E3.
  { eapply FQ_FN; [|apply fetch_document_indicator_f; auto; try exact Logic.I; try ptok]; [lia|].
    apply (Hb3 cDOT cDOT cDOT). repeat (apply andb_true_iff in E3; destruct E3 as [E3 ?]). apply andb_true_iff; split; [apply andb_true_iff; split|]; assumption. }
  assert (Hdi : at_document_indicator s = false).
  { unfold at_document_indicator. fold o. destruct (m_col (pos s) =? 0); [|reflexivity]. cbn [andb] in *.
    destruct (chk cMINUS o), (chk cDOT o), (chk cMINUS (bget 1 s)), (chk cDOT (bget 1 s)), (chk cMINUS (bget 2 s)), (chk cDOT (bget 2 s)), (is_blankz (bget 3 s));
      cbn [andb orb] in *; congruence. }
  clear Hb3 E1 E2 E3.
  destruct (chk cLBRK o); [eapply FQ_FN; [|apply fetch_flow_start_f; auto; try exact Logic.I; try ptok]; lia|].
  destruct (chk cLBRC o); [eapply FQ_FN; [|apply fetch_flow_start_f; auto; try exact Logic.I; try ptok]; lia|].
  destruct (chk cRBRK o); [eapply FQ_FN; [|apply fetch_flow_end_f; auto; try exact Logic.I; try ptok]; lia|].
  destruct (chk cRBRC o); [eapply FQ_FN; [|apply fetch_flow_end_f; auto; try exact Logic.I; try ptok]; lia|].
  destruct (chk cCOMMA o); [eapply FQ_FN; [|apply fetch_flow_entry_f; auto]; lia|].
  destruct (chk cMINUS o && is_blankz (bget 1 s)); [eapply FQ_FN; [|apply fetch_block_entry_f; auto]; lia|].
  destruct (chk cQM o && (negb (flow_level s =? 0) || is_blankz (bget 1 s))) eqn:Eq; [eapply FQ_FN; [|apply fetch_key_f; auto]; lia|].
  destruct (chk cCOLON o && (negb (flow_level s =? 0) || is_blankz (bget 1 s))) eqn:Ec; [eapply FQ_FN; [|apply fetch_value_f; auto]; lia|].
  destruct (chk cSTAR o); [eapply FQ_FN; [|apply fetch_anchor_f; auto]; lia|].
  destruct (chk cAMP o); [eapply FQ_FN; [|apply fetch_anchor_f; auto]; lia|].
  destruct (chk cBANG o); [eapply FQ_FN; [|apply fetch_tag_f; auto]; lia|].
  destruct (chk cPIPE o && negb (negb (flow_level s =? 0))); [eapply FQ_FN; [|apply fetch_block_scalar_f; auto]; lia|].
  destruct (chk cGT o && negb (negb (flow_level s =? 0))); [eapply FQ_FN; [|apply fetch_block_scalar_f; auto]; lia|].
  destruct (chk cSQ o); [eapply FQ_FN; [|apply fetch_flow_scalar_f; auto]; lia|].
  destruct (chk cDQ o); [eapply FQ_FN; [|apply fetch_flow_scalar_f; auto]; lia|].
  destruct (plain_start s) eqn:Ep.
  - eapply FQ_FN; [|apply fetch_plain_scalar_f; auto]; [lia|].
    split; [exact V5|]. split; [apply I5|]. split; [exact Ep|]. split; [exact Hdi|].
    intros Hf. apply N.eqb_neq in Hf. rewrite Hf in *. cbn [negb orb] in *. rewrite andb_true_r in *. auto.
  - apply err_keep; [apply I5|unfold same_io; auto 10|]. split; apply mark_le_refl.
Qed.

(** ** fetch_more_tokens *)
Lemma mu_nonneg s : (0 <= mu s)%Z.
Proof. unfold mu, b2z. destruct (negb _), (negb _); lia. Qed.
Definition phi (s : sst) : Z := (ti s + 4 * mu s)%Z.

Lemma no_end_existsb l : Forall no_end l <-> existsb is_stream_end l = false.
Proof.
  split.
  - intros H. destruct (existsb is_stream_end l) eqn:E; [|reflexivity]. apply existsb_exists in E. destruct E as (x & Hx & Hx2).
    rewrite Forall_forall in H. specialize (H x Hx). unfold no_end in H. congruence.
  - intros H. apply Forall_forall. intros x Hx. unfold no_end. destruct (is_stream_end x) eqn:E; [|reflexivity].
    rewrite <- H. symmetry. apply existsb_exists. eauto.
Qed.
Lemma not_ended_del W del s : SInv W del s -> stream_end_produced s = false -> Forall no_end del.
Proof. intros I H. apply no_end_existsb. rewrite <- (si_ended _ _ _ I). exact H. Qed.

(** The stream has ended: every simple key is stale. *)
Lemma ended_stale W del s : SInv W del s -> ~ Forall no_end (all del s) ->
  Forall (fun k => sk_stale (pos s) k = false) (simple_keys s) ->
  Forall (fun k => sk_possible k = false) (simple_keys s).
Proof.
  intros I He Hs. assert (exists a t b, all del s = a ++ t :: b /\ is_stream_end t = true) as (a & t & b & E & Et).
  { destruct (existsb is_stream_end (all del s)) eqn:E.
    - apply existsb_exists in E. destruct E as (x & Hx & Hx2). apply in_split in Hx. destruct Hx as (a & b & Hx). eauto.
    - exfalso. apply He, no_end_existsb, E. }
  destruct (si_end _ _ _ I a t b E Et) as (_ & Hk & _). rewrite Forall_forall in *.
  intros k Hin. destruct (sk_possible k) eqn:Ep; [|reflexivity]. specialize (Hk k Hin Ep). specialize (Hs k Hin). cbn beta in *.
  unfold sk_stale in Hs. rewrite Ep in Hs. cbn [andb] in Hs. apply orb_false_iff in Hs. destruct Hs as [Hs _]. lia.
Qed.
Lemma need_more_false s : need_more_tokens s = false ->
  tokens s <> [] /\ Forall (on (fun k => sk_token k <> tokens_parsed s)) (simple_keys s).
Proof.
  unfold need_more_tokens. intros H. apply orb_false_iff in H. destruct H as [H1 H2].
  split; [destruct (tokens s); [discriminate|discriminate]|]. apply Forall_forall. intros k Hk Hp He.
  assert (existsb (fun k => sk_possible k && (sk_token k =? tokens_parsed s)) (simple_keys s) = true).
  { apply existsb_exists. exists k. split; [exact Hk|]. rewrite Hp, He, N.eqb_refl. reflexivity. }
  congruence.
Qed.
Lemma SInv_avail W del s : SInv W del s -> tokens s <> [] -> Forall (on (fun k => sk_token k <> tokens_parsed s)) (simple_keys s) ->
  SInv W del (set_token_available true s).
Proof. intros I H1 H2. constructor; try apply I. intros _. split; assumption. Qed.

Definition stepp (s s' : sst) : Prop := step (4 * (mu s - mu s')) 0 0 s s'.
Lemma stepp_trans a b c : stepp a b -> stepp b c -> stepp a c.
Proof. unfold stepp. intros A B. eapply step_weaken; [eapply step_trans; eassumption|lia..]. Qed.
Lemma stepp_refl s : stepp s s.
Proof. unfold stepp. eapply step_weaken; [apply step_refl|lia..]. Qed.

Definition LI W del s0 (_ : unit) (s : sst) : Prop :=
  SInv W del s /\ token_available s = false /\ stepp s0 s /\ (Forall no_end (all del s) \/ tokens s <> []).

Lemma fetch_more_f W del s : Wok W -> SInv W del s -> token_available s = false -> stream_end_produced s = false ->
  FW W del s fetch_more_tokens (fun _ s' => SInv W del s' /\ token_available s' = true /\ tokens s' <> [] /\ stepp s s') s.
Proof.
  intros HW I Ha Hse. pose proof (not_ended_del _ _ _ I Hse) as Hd.
  unfold FW, fetch_more_tokens. apply wp_bind.
  match goal with |- wp ?m ?Q ?E ?P s => change (wp (loopM (S (S (S (S (meas s))))) (fun _ : unit =>
    s <- get ;;
    (if is_empty (tokens s) then ret tt else stale_simple_keys) ;;
    s <- get ;;
    if negb (need_more_tokens s) then ret (inr tt)
    else fetch_next_token ;; ret (inl tt)) tt) Q E P s) end.
  apply wp_loopM with (I := LI W del s) (f := fun s' => Z.to_nat (mu s')).
  2:{ split; [exact I|]. split; [exact Ha|]. split; [apply stepp_refl|]. destruct (existsb is_stream_end (tokens s)) eqn:E.
      - right. intros Ht. rewrite Ht in E. discriminate.
      - left. apply Forall_app. split; [exact Hd|apply no_end_existsb, E]. }
  2:{ unfold mu, b2z. destruct (negb _), (negb _); lia. }
  intros [] s1 (I1 & Ha1 & S1 & Hor). apply wp_bind, wp_get.
  (* the stale keys *)
  eapply fseq with (Q1 := fun (_ : unit) s' => SInv W del s' /\ token_available s' = false /\ stepp s s' /\ (mu s' <= mu s1)%Z /\
     (Forall no_end (all del s') \/ (tokens s' <> [] /\ Forall (fun k => sk_possible k = false) (simple_keys s')))).
  { exact S1. } { lia. }
  { destruct (is_empty (tokens s1)) eqn:Et.
    - unfold FW. apply wp_ret. split; [exact I1|]. split; [exact Ha1|]. split; [exact S1|]. split; [lia|].
      left. destruct Hor as [H|H]; [exact H|]. destruct (tokens s1); [contradiction|discriminate].
    - eapply wp_conseq; [apply stale_f, I1| |auto|auto]. cbn beta. intros _ s2 (ks & -> & Hks & Hst).
      pose proof (SInv_koff _ _ _ _ I1 Hks) as I2. pose proof (step_koff _ _ Hks) as S2.
      split; [exact I2|]. split; [exact Ha1|].
      assert (Hmu : (mu (set_simple_keys ks s1) = mu s1)%Z) by reflexivity.
      split; [|split; [lia|]].
      + eapply stepp_trans; [exact S1|]. unfold stepp. rewrite Hmu. eapply step_weaken; [exact S2|lia..].
      + destruct (existsb is_stream_end (all del s1)) eqn:E.
        * right. split; [change (tokens s1 <> []); destruct (tokens s1); [discriminate|discriminate]|].
          apply (ended_stale W del _ I2); [|exact Hst].
          intros H. apply no_end_existsb in H. change (all del (set_simple_keys ks s1)) with (all del s1) in H. congruence.
        * left. apply no_end_existsb. exact E. }
  cbn beta. intros _ s2 (I2 & Ha2 & S2 & Hm2 & Hor2). unfold FW. apply wp_bind, wp_get.
  destruct (need_more_tokens s2) eqn:En; cbn [negb].
  2:{ apply wp_ret. apply wp_modify. destruct (need_more_false _ En) as [N1 N2].
      split; [apply SInv_avail; assumption|]. split; [reflexivity|]. split; [exact N1|].
      eapply stepp_trans; [exact S2|]. unfold stepp. assert (mu (set_token_available true s2) = mu s2) as -> by reflexivity.
      rewrite Z.sub_diag. apply step_same; fld; auto; try lia; [unfold same_io; auto 10|unfold ti; fld; lia]. }
  destruct Hor2 as [Hne|[Ht Hk]].
  2:{ exfalso. unfold need_more_tokens in En. destruct (tokens s2); [contradiction|]. cbn [is_empty orb] in En.
      apply existsb_exists in En. destruct En as (k & Hin & Hk2). rewrite Forall_forall in Hk. specialize (Hk k Hin). lia. }
  eapply fseq; [exact S2|lia|apply fetch_next_f; assumption|]. intros ? s3 (I3 & Ha3 & S3 & Hor3).
  unfold FW. apply wp_ret. pose proof (st_mu _ _ _ _ _ S3) as Hmu. pose proof (mu_nonneg s3).
  split; [|lia]. split; [exact I3|]. split; [exact Ha3|]. split.
  - eapply stepp_trans; [exact S2|]. unfold stepp. destruct S3. constructor; auto; lia.
  - destruct Hor3 as [H3|(t & r & Et & _)]; [left; apply H3|right; rewrite Et; destruct r; discriminate].
Qed.

(** ** Delivering tokens *)
(** Progress of a call: [a] bounds the change of the number of tokens still to come. *)
Record prog (a : Z) (s s' : sst) : Prop := {
  pg_phi : (phi s' <= phi s + a)%Z;
  pg_bnd : forall K, bnd K s -> bnd K s';
  pg_idx : utf16 (enc s') = false -> m_index (pos s') + blen s' <= m_index (pos s) + blen s;
  pg_enc : enc s <> EncAny -> enc s' = enc s;
  pg_dbg : debug_build s' = debug_build s;
  pg_pos : mark_le (pos s) (pos s') }.
Lemma prog_trans a b s1 s2 s3 : prog a s1 s2 -> prog b s2 s3 -> prog (a + b) s1 s3.
Proof.
  intros [] []. constructor; auto; try lia.
  - intros H. specialize (pg_idx1 H). specialize (pg_idx0 (utf16_mono _ _ pg_enc1 H)). lia.
  - intros H. rewrite pg_enc1; [auto|]. rewrite (pg_enc0 H). exact H.
  - eapply mark_le_trans; eassumption.
Qed.
Lemma prog_refl s : prog 0 s s.
Proof. constructor; auto; try lia. apply mark_le_refl. Qed.
Lemma prog_weaken a b s1 s2 : prog a s1 s2 -> (a <= b)%Z -> prog b s1 s2.
Proof. intros [] H. constructor; auto. lia. Qed.
Lemma stepp_prog s s' : stepp s s' -> prog 0 s s'.
Proof.
  intros S. pose proof (fun K => bnd_step K _ _ _ _ _ S (Z.le_refl 0)) as HB. destruct S.
  constructor; auto. unfold phi. lia.
Qed.
Lemma fpanic_prog a s s' p : prog a s s' -> fpanic s' p -> fpanic s p.
Proof.
  intros S [H|[H1 H2]]; [left; rewrite <- (pg_dbg _ _ _ S); exact H|right]. split; [exact H1|].
  intros K HK HB. apply (H2 K HK). apply S, HB.
Qed.
Lemma ferr_prog W del a s s' e s2 : prog a s s' -> ferr W del s' e s2 -> ferr W del s e s2.
Proof.
  intros S []. constructor; auto.
  - intros H. specialize (fe_idx H). pose proof (pg_idx _ _ _ S (utf16_mono _ _ fe_enc H)). lia.
  - intros H. rewrite fe_enc; [apply S, H|]. rewrite (pg_enc _ _ _ S H). exact H.
  - eapply mark_le_trans; [apply S|exact fe_pos].
  - rewrite fe_dbg. apply S.
Qed.

(** Taking the front token. *)
Definition popped (t : token) (r : list token) (s : sst) : sst :=
  set_stream_end_produced (is_stream_end t) (set_tokens_parsed (tokens_parsed s + 1) (set_token_available false (set_tokens r s))).
Lemma all_pop del t r s : tokens s = t :: r -> all (del ++ [t]) (popped t r s) = all del s.
Proof. intros H. unfold all, popped. fld. rewrite H, <- app_assoc. reflexivity. Qed.
Lemma SInv_pop W del t r s : SInv W del s -> token_available s = true -> stream_end_produced s = false -> tokens s = t :: r ->
  SInv W (del ++ [t]) (popped t r s).
Proof.
  intros I Ha Hse Ht. pose proof (all_pop del t r s Ht) as Hall. destruct (si_avail _ _ _ I Ha) as [_ Hk].
  assert (Hst : stream_start_produced s = true).
  { destruct (stream_start_produced s) eqn:E; [reflexivity|]. destruct (si_fresh _ _ _ I E) as (_ & _ & H & _).
    unfold all in H. rewrite Ht in H. apply app_eq_nil in H. destruct H. discriminate. }
  constructor; rewrite ?Hall; try apply I.
  - unfold popped. fld. rewrite (si_num _ _ _ I), app_length. cbn [length]. lia.
  - pose proof (si_keys _ _ _ I) as Hkk. rewrite Forall_forall in *. intros k Hin Hp.
    destruct (Hkk k Hin Hp) as (K1 & K2 & K3 & K4 & K5 & K6). specialize (Hk k Hin Hp). cbn beta in Hk.
    unfold key_ok. rewrite Hall. split; [exact K1|].
    change (tokens_parsed (popped t r s)) with (tokens_parsed s + 1). split; [lia|]. auto.
  - intros H. discriminate.
  - change (stream_end_produced (popped t r s)) with (is_stream_end t). rewrite existsb_app, <- (si_ended _ _ _ I), Hse. cbn. rewrite orb_false_r. reflexivity.
Qed.
Lemma prog_pop t r s : stream_end_produced s = false -> tokens s = t :: r -> prog (-1) s (popped t r s).
Proof.
  intros Hse Ht. constructor; auto.
  - unfold phi, ti, mu, ended, popped. fld. rewrite Ht, Hse. change (meas (set_stream_end_produced (is_stream_end t) (set_tokens_parsed (tokens_parsed s + 1) (set_token_available false (set_tokens r s))))) with (meas s).
    cbn [length existsb orb]. lia.
  - change (pos (popped t r s)) with (pos s). change (blen (popped t r s)) with (blen s). lia.
  - apply mark_le_refl.
Qed.

Definition TP W del s (t : token) (s' : sst) : Prop := SInv W (del ++ [t]) s' /\ prog (-1) s s'.
Lemma scan_f W del s : Wok W -> SInv W del s -> stream_end_produced s = false ->
  FW W del s scan (TP W del s) s.
Proof.
  intros HW I Hse. unfold scan, FW. apply wp_bind, wp_get. rewrite Hse. apply wp_bind.
  assert (Hpop : forall s1, SInv W del s1 -> token_available s1 = true -> stream_end_produced s1 = false -> prog 0 s s1 ->
    wp (fun s => match tokens s with
              | [] => (Panic PTokensEmpty, s)
              | t :: r =>
                  let s := set_tokens_parsed (tokens_parsed s + 1)
                             (set_token_available false (set_tokens r s)) in
                  (Ok t, if is_stream_end t then set_stream_end_produced true s else s)
              end) (TP W del s) (ferr W del s) (fpanic s) s1).
  { intros s1 I1 Ha1 Hse1 P1. unfold wp. destruct (si_avail _ _ _ I1 Ha1) as [Hne _].
    destruct (tokens s1) as [|t r] eqn:Et; [contradiction|]. cbn zeta.
    replace (if is_stream_end t then _ else _) with (popped t r s1).
    2:{ unfold popped. destruct (is_stream_end t); [reflexivity|]. rewrite <- Hse1. destruct s1. reflexivity. }
    split; [apply SInv_pop; assumption|]. eapply prog_weaken; [eapply prog_trans; [exact P1|apply prog_pop; assumption]|lia]. }
  destruct (token_available s) eqn:Ea.
  - apply wp_ret. apply Hpop; auto. apply prog_refl.
  - eapply wp_conseq; [apply fetch_more_f; eassumption| |auto|auto]. cbn beta.
    intros _ s1 (I1 & Ha1 & _ & S1). apply Hpop; auto; [|apply stepp_prog, S1]. rewrite (st_sep _ _ _ _ _ S1). exact Hse.
Qed.
Lemma scanner_next_f W del s : Wok W -> SInv W del s ->
  FW W del s scanner_next (fun o s' => match o with
                                       | Some t => stream_end_produced s = false /\ TP W del s t s'
                                       | None => stream_end_produced s = true /\ s' = s
                                       end) s.
Proof.
  intros HW I. unfold scanner_next, FW. apply wp_bind, wp_get. destruct (stream_end_produced s) eqn:E; [apply wp_ret; auto|].
  eapply fseq; [apply step_refl|lia|apply scan_f; assumption|]. intros t s1 H. unfold FW. apply wp_ret. auto.
Qed.

(** The parser looks at the front token, then skips it. *)
Lemma peek_f W del s : Wok W -> SInv W del s -> stream_end_produced s = false ->
  FW W del s peek (fun t s' => SInv W del s' /\ token_available s' = true /\ stream_end_produced s' = false /\
     prog 0 s s' /\ exists r, tokens s' = t :: r) s.
Proof.
  intros HW I Hse. unfold peek, FW. apply wp_bind, wp_get. apply wp_bind.
  assert (Hend : forall s1, SInv W del s1 -> token_available s1 = true -> stream_end_produced s1 = false -> prog 0 s s1 ->
     wp (s <- get ;;
         if negb (token_available s) then panics PNotAvailable
         else match tokens s with
              | [] => panics PTokensEmpty
              | t :: _ => ret t
              end) (fun t s' => SInv W del s' /\ token_available s' = true /\ stream_end_produced s' = false /\
     prog 0 s s' /\ exists r, tokens s' = t :: r) (ferr W del s) (fpanic s) s1).
  { intros s1 I1 Ha1 Hse1 P1. apply wp_bind, wp_get. rewrite Ha1. cbn [negb]. destruct (si_avail _ _ _ I1 Ha1) as [Hne _].
    destruct (tokens s1) as [|t r] eqn:Et; [contradiction|]. apply wp_ret. rewrite Et. eauto 10. }
  destruct (token_available s) eqn:Ea.
  - apply wp_ret. apply Hend; auto. apply prog_refl.
  - eapply wp_conseq; [apply fetch_more_f; eassumption| |auto|auto]. cbn beta.
    intros _ s1 (I1 & Ha1 & _ & S1). apply Hend; auto; [|apply stepp_prog, S1]. rewrite (st_sep _ _ _ _ _ S1). exact Hse.
Qed.
Lemma skip_ok W del s t r : SInv W del s -> token_available s = true -> stream_end_produced s = false -> tokens s = t :: r ->
  skip_token s = (Ok tt, popped t r s) /\ TP W del s t (popped t r s).
Proof.
  intros I Ha Hse Ht. split; [unfold skip_token; fld; rewrite Ht; reflexivity|].
  split; [apply SInv_pop; assumption|apply prog_pop; assumption].
Qed.
(** Emptying the payload of the front token. *)
Lemma set_front_ok del s t r d : SInv (fun _ => True) del s -> tokens s = t :: r -> 
  opens d = opens (t_data t) -> closes d = closes (t_data t) ->
  (forall a b, is_start (Mk_token d a b) = is_start t) -> (forall a b, is_stream_end (Mk_token d a b) = is_stream_end t) ->
  let s' := set_tokens (Mk_token d (t_start t) (t_end t) :: r) s in
  set_front d s = (Ok tt, s') /\ SInv (fun _ => True) del s' /\ prog 0 s s'.
Proof.
  intros I Ht H1 H2 H3 H4. cbn zeta. split; [unfold set_front, modify; rewrite Ht; reflexivity|].
  set (t' := Mk_token d (t_start t) (t_end t)). set (s' := set_tokens (t' :: r) s).
  assert (Ha : all del s = (del ++ [t]) ++ r) by (unfold all; rewrite Ht, <- app_assoc; reflexivity).
  assert (Ha' : all del s' = (del ++ [t']) ++ r) by (unfold all, s'; fld; rewrite <- app_assoc; reflexivity).
  assert (Hdep : forall l, depth 0 ((del ++ [t']) ++ l) = depth 0 ((del ++ [t]) ++ l)).
  { intros l. rewrite !depth_app. destruct (depth 0 del); [|reflexivity]. cbn [depth t' t_data]. rewrite H1, H2. reflexivity. }
  assert (Hord : forall lo hi l1 l2, ordered lo (l1 ++ t' :: l2) hi <-> ordered lo (l1 ++ t :: l2) hi).
  { intros lo hi l1 l2. revert lo. induction l1 as [|x l1 IH]; intros lo; cbn [app ordered]; [reflexivity|]. rewrite IH. reflexivity. }
  assert (Hmap : forall j lo hi, ordered lo (firstn j (all del s')) hi <-> ordered lo (firstn j (all del s)) hi).
  { intros j lo hi. rewrite Ha, Ha'. rewrite <- !app_assoc. cbn [app].
    rewrite !firstn_app. destruct (j - length del)%nat as [|n]; [reflexivity|]. cbn [firstn]. apply Hord. }
  assert (Hmap2 : forall j lo hi, ordered lo (skipn j (all del s')) hi <-> ordered lo (skipn j (all del s)) hi).
  { intros j lo hi. rewrite Ha, Ha'. rewrite <- !app_assoc. cbn [app].
    rewrite !skipn_app. destruct (j - length del)%nat as [|n]; [|reflexivity]. cbn [skipn]. apply Hord. }
  assert (Hend : existsb is_stream_end (tokens s') = existsb is_stream_end (tokens s)).
  { unfold s'. fld. rewrite Ht. cbn [existsb]. unfold t'. rewrite H4. reflexivity. }
  split.
  - pose proof (si_bal _ _ _ I) as Hbal. pose proof (si_ord _ _ _ I) as Ho. pose proof (si_keys _ _ _ I) as Hk.
    assert (Hst : stream_start_produced s = true).
    { destruct (stream_start_produced s) eqn:E; [reflexivity|]. destruct (si_fresh _ _ _ I E) as (_ & _ & H & _).
      unfold all in H. rewrite Ht in H. apply app_eq_nil in H. destruct H. discriminate. }
    constructor; try apply I.
    + intros H. exfalso. change (stream_start_produced s = false) in H. congruence.
    + intros _. destruct (si_head _ _ _ I Hst) as (x & rest & E & E1 & E2). rewrite Ha in E. rewrite Ha'.
      destruct del as [|y del]; cbn [app] in *; inversion E; subst.
      * exists t', rest. split; [reflexivity|]. split; [unfold t'; rewrite H3; exact E1|exact E2].
      * exists x, ((del ++ [t']) ++ r). split; [reflexivity|]. split; [exact E1|]. apply Forall_app in E2. destruct E2 as [E2 E3].
        apply Forall_app in E2. destruct E2 as [E2 E4]. apply Forall_app. split; [apply Forall_app; split|]; auto.
        inversion E4; subst. constructor; [unfold no_start, t' in *; rewrite H3; assumption|constructor].
    + rewrite Ha', Hdep, <- Ha. exact Hbal.
    + rewrite Ha', <- app_assoc. cbn [app]. apply Hord. rewrite Ha, <- app_assoc in Ho. exact Ho.
    + apply Forall_forall. auto.
    + eapply Forall_on; [exact Hk|]. intros k _ (K1 & K2 & K3 & K4 & K5 & K6). unfold key_ok.
      split; [exact K1|]. split; [exact K2|]. split; [rewrite Ha'; rewrite Ha in K3; rewrite !app_length in *; exact K3|].
      split; [apply Hmap, K4|]. split; [apply Hmap2, K5|exact K6].
    + intros Hav. split; [discriminate|]. apply (si_avail _ _ _ I Hav).
    + intros a x b E Ex. rewrite Ha', <- app_assoc in E. cbn [app] in E.
      pose proof (si_end _ _ _ I) as Hse. rewrite Ha, <- app_assoc in Hse. cbn [app] in Hse.
      assert (exists a0 x0 b0, del ++ t :: r = a0 ++ x0 :: b0 /\ is_stream_end x0 = true /\ length b0 = length b) as (a0 & x0 & b0 & E0 & Ex0 & El).
      { clear - E Ex H4. revert a E. induction del as [|y del IH]; intros a E; cbn [app] in *.
        - destruct a as [|z a]; cbn [app] in E; inversion E; subst.
          + exists [], t, b. split; [reflexivity|]. split; [unfold t' in Ex; rewrite H4 in Ex; exact Ex|reflexivity].
          + exists (t :: a), x, b. auto.
        - destruct a as [|z a]; cbn [app] in E; inversion E; subst.
          + exists [], x, (del ++ t :: r). split; [reflexivity|]. split; [exact Ex|]. rewrite !app_length. reflexivity.
          + destruct (IH a H1) as (a0 & x0 & b0 & F1 & F2 & F3). exists (z :: a0), x0, b0. rewrite F1. auto. }
      destruct (Hse a0 x0 b0 E0 Ex0) as (G1 & G2 & G3). subst b0. destruct b; [|discriminate]. auto.
  - constructor; auto.
    + unfold phi, ti, mu, ended. rewrite Hend. change (meas s') with (meas s). change (indents s') with (indents s).
      change (stream_start_produced s') with (stream_start_produced s). change (stream_end_produced s') with (stream_end_produced s).
      change (tokens s') with (t' :: r). rewrite Ht. cbn [length]. lia.
    + change (pos s') with (pos s). change (blen s') with (blen s). lia.
    + apply mark_le_refl.
Qed.
